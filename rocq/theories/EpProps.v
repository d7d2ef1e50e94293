(** C80-C83: epoch systems and isochron lists.  [make_epochs] is the constructor Epochs(source, identifier, pf, cf); [sequence_names] and
    [chronology_names] give where the names of the epochs are written; [decode_formatting], [epoch_regions], [epoch_lines] how the epochs
    are drawn; [parse_isochrons] reads the option -isochrons. *)
From Coq Require Import String Ascii List ZArith Reals Lra Lia Bool Sorting.Sorted.
From Verif Require Import Base NumModel NumLemmas BinModel ChronModel ChronSpec ChronProofs ChronProps ProdModel ProdSpec ProdProofs ProdProofs2 ProdProofs3 ProdProps AgeSpec AgeProofs2.
From Verif Require Import StrModel CliModel CliProofs2 FmtModel FmtProofs StrProofs TsModel IoModel SccModel SccProofs3 LegSpec LegProofs2 EpModel EpSpec EpProofs.
Import ListNotations.
Local Open Scope R_scope.

(** ** C80 *)
Lemma find_first n l d : first_named n l d -> find_definition l n = Ok (TDict d).
Proof.
  intros (before & after & -> & (d' & E & K) & F). injection E as <-. induction F as [|v before (m & (dm & -> & Km) & Hm) F IH].
  - cbn [app find_definition sub]. unfold dict_get. rewrite K. cbn [bind is_text].
    destruct (seqb_spec n n); [reflexivity|congruence].
  - cbn [app find_definition sub]. unfold dict_get. rewrite Km. cbn [bind is_text].
    destruct (seqb_spec m n); [congruence|exact IH].
Qed.
Lemma find_none n l : Forall (fun v => exists m, named m v /\ m <> n) l -> find_definition l n = Err ValueError.
Proof.
  induction 1 as [|v l (m & (dm & -> & Km) & Hm) F IH]; [reflexivity|].
  cbn [find_definition sub]. unfold dict_get. rewrite Km. cbn [bind is_text]. destruct (seqb_spec m n); [congruence|exact IH].
Qed.
Lemma optional_list {A} (f : tsval -> res A) d k l r : lookup d k = Some (TList l) -> mapM f l = Ok r -> optional (TDict d) k f = Ok (Some r).
Proof. intros K M. unfold optional, has, sub, dict_get. rewrite K. cbn [bind elements]. rewrite M. reflexivity. Qed.
Lemma optional_none {A} (f : tsval -> res A) d k : lookup d k = None -> optional (TDict d) k f = Ok None.
Proof. intros K. unfold optional, has. now rewrite K. Qed.
(** the constructor once the definition is found *)
Lemma make_found cfit fs defs l n d ep fm pf cf ref den tm :
  lookup defs (L "epochs") = Some (TList l) -> first_named n l d -> basic_fields d ep fm ->
  optional (TDict d) (L "ref_diameter") int_of = Ok ref -> optional (TDict d) (L "density") float_of = Ok den ->
  optional (TDict d) (L "time") float_of = Ok tm ->
  make_epochs cfit fs (SDict defs) n pf cf =
    (do! tm <- (match tm with
                | Some t => Ok t
                | None =>
                    match ref, den with
                    | Some ref, Some den => do! t <- mapM (boundary_age cfit pf cf) (combine ref den); Ok (0 :: t)
                    | _, _ => Err TypeError
                    end
                end);
     Ok (mkEpochs ep fm tm)).
Proof.
  intros Kl F (K1 & K2 & K3) O1 O2 O3. unfold make_epochs. cbn [load bind]. unfold dict_get at 1. rewrite Kl. cbn [bind elements].
  rewrite (find_first n l d F). cbn [bind sub]. unfold dict_get. rewrite K1, K2. cbn [bind]. rewrite O1. cbn [bind]. rewrite O2. cbn [bind].
  rewrite O3. cbn [bind]. destruct (lookup d (L "reference")) as [v|]; [|congruence]. reflexivity.
Qed.
Lemma boundary_ok cfit pf cf z n : solves_least_squares cfit -> built pf -> (0 < z)%Z -> 0 < n ->
  exists a, boundary_age cfit pf cf (z, n) = Ok (cf_t_a0 cf a) /\ passes_through pf (IZR z) (n / 10 ^ 6) a.
Proof.
  intros LS B Hz Hn. assert (P : 0 < n / 10 ^ 6) by (apply Rdiv_lt_0_compat; [exact Hn|apply pow_lt; lra]).
  destruct (point_fit cfit pf (IZR z) (n / 10 ^ 6) LS B ltac:(now apply IZR_lt) P) as (a & u & v & E & T).
  exists a. split; [|exact T]. unfold boundary_age. cbn [fst snd]. rewrite E. reflexivity.
Qed.

(** boundaries given as densities per million km2 at reference diameters: the first epoch begins at the present, and every further one
    at the age of the isochron through the density at its diameter *)
Theorem C80_boundaries_from_densities :
  forall cfit fs defs l n d ep fm rs ns ref den pf cf,
    solves_least_squares cfit -> built pf -> positive_coefficients cf ->
    lookup defs (L "epochs") = Some (TList l) -> first_named n l d -> basic_fields d ep fm ->
    lookup d (L "time") = None ->
    lookup d (L "ref_diameter") = Some (TList rs) -> mapM int_of rs = Ok ref -> Forall (fun z => (0 < z)%Z) ref ->
    lookup d (L "density") = Some (TList ns) -> mapM float_of ns = Ok den -> Forall (fun x => 0 < x) den ->
    exists ts, make_epochs cfit fs (SDict defs) n pf cf = Ok (mkEpochs ep fm (0 :: ts)) /\
      Forall2 (fun dn t => exists a, passes_through pf (IZR (fst dn)) (snd dn / 10 ^ 6) a /\
                 (forall b, passes_through pf (IZR (fst dn)) (snd dn / 10 ^ 6) b -> b = a) /\ age_of cf (pow10 a) t) (combine ref den) ts.
Proof.
  intros cfit fs defs l n d ep fm rs ns ref den pf cf LS B Hc Kl F BF KT KR MR PR KD MD PD.
  assert (Q : exists ts, mapM (boundary_age cfit pf cf) (combine ref den) = Ok ts /\
      Forall2 (fun dn t => exists a, passes_through pf (IZR (fst dn)) (snd dn / 10 ^ 6) a /\
                 (forall b, passes_through pf (IZR (fst dn)) (snd dn / 10 ^ 6) b -> b = a) /\ age_of cf (pow10 a) t) (combine ref den) ts).
  { clear MR MD. revert den PD. induction PR as [|z ref Hz PR IH]; intros den PD; [exists []; split; [reflexivity|constructor]|].
    destruct PD as [|x den Hx PD]; [exists []; split; [reflexivity|constructor]|].
    destruct (IH den PD) as (ts & E & G). destruct (boundary_ok cfit pf cf z x LS B Hz Hx) as (a & E1 & T).
    exists (cf_t_a0 cf a :: ts). cbn [combine mapM]. rewrite E1. cbn [bind]. rewrite E. split; [reflexivity|].
    constructor; [|exact G]. exists a. split; [exact T|]. split; [|now apply age_of_ok].
    intros b Hb. cbn [fst snd] in *. apply (through_unique pf (IZR z) (x / 10 ^ 6)); auto.
    apply Rdiv_lt_0_compat; [exact Hx|apply pow_lt; lra]. }
  destruct Q as (ts & E & G). exists ts. split; [|exact G].
  rewrite (make_found cfit fs defs l n d ep fm pf cf (Some ref) (Some den) None Kl F BF); [|eapply optional_list; eassumption..|now apply optional_none].
  rewrite E. reflexivity.
Qed.
(** at one diameter a boundary of higher density is not younger, and older unless both have reached 5 Ga *)
Theorem C80_denser_is_older :
  forall cfit pf cf z n1 n2 t1 t2,
    solves_least_squares cfit -> built pf -> positive_coefficients cf -> (0 < z)%Z -> 0 < n1 < n2 ->
    boundary_age cfit pf cf (z, n1) = Ok t1 -> boundary_age cfit pf cf (z, n2) = Ok t2 ->
    t1 <= t2 /\ (t1 < 5 -> t1 < t2).
Proof.
  intros cfit pf cf z n1 n2 t1 t2 LS B Hc Hz Hn E1 E2.
  destruct (boundary_ok cfit pf cf z n1 LS B Hz ltac:(lra)) as (a & Ea & Ta).
  destruct (boundary_ok cfit pf cf z n2 LS B Hz ltac:(lra)) as (b & Eb & Tb).
  assert (H1 : t1 = cf_t_a0 cf a) by congruence. assert (H2 : t2 = cf_t_a0 cf b) by congruence. subst t1 t2.
  assert (AB : a < b).
  { unfold passes_through in *. pose proof (value_scale pf _ _ a (b - a) _ B Ta) as S. replace (a + (b - a)) with b in S by ring.
    rewrite Tb in S. assert (S1 : n2 / 10 ^ 6 = pow10 (b - a) * (n1 / 10 ^ 6)) by (injection S as S1; exact S1). assert (0 < 10 ^ 6) by (apply pow_lt; lra).
    assert (K : n2 = pow10 (b - a) * n1).
    { apply (Rmult_eq_reg_r (/ 10 ^ 6)); [|apply Rinv_neq_0_compat; lra]. unfold Rdiv in S1. rewrite S1. ring. }
    destruct (Rlt_le_dec a b) as [G|G]; [exact G|]. exfalso.
    assert (pow10 (b - a) <= pow10 0) by (apply pow10_le; lra). rewrite pow10_0 in *. pose proof (pow10_pos (b - a)). nra. }
  assert (P : pow10 a < pow10 b) by now apply pow10_lt. unfold cf_t_a0. split; [apply cf_t_mono; [exact Hc|lra]|].
  intros H. apply cf_t_lt; [exact Hc|split; [left; apply pow10_pos|exact P]|].
  destruct (Rlt_le_dec (pow10 a) (N1 cf 5)) as [G|G]; [exact G|]. rewrite (cf_t_beyond cf Hc _ G) in H. lra.
Qed.
(** boundaries given as ages are taken as they are *)
Theorem C80_ages_given :
  forall cfit fs defs l n d ep fm ws tm ref den pf cf,
    lookup defs (L "epochs") = Some (TList l) -> first_named n l d -> basic_fields d ep fm ->
    lookup d (L "time") = Some (TList ws) -> mapM float_of ws = Ok tm ->
    optional (TDict d) (L "ref_diameter") int_of = Ok ref -> optional (TDict d) (L "density") float_of = Ok den ->
    make_epochs cfit fs (SDict defs) n pf cf = Ok (mkEpochs ep fm tm).
Proof.
  intros cfit fs defs l n d ep fm ws tm ref den pf cf Kl F BF KT MT O1 O2.
  rewrite (make_found cfit fs defs l n d ep fm pf cf ref den (Some tm) Kl F BF O1 O2); [reflexivity|eapply optional_list; eassumption].
Qed.
(** a name that is not defined is refused *)
Theorem C80_unknown_name :
  forall cfit fs defs l n pf cf,
    lookup defs (L "epochs") = Some (TList l) -> Forall (fun v => exists m, named m v /\ m <> n) l ->
    make_epochs cfit fs (SDict defs) n pf cf = Err ValueError.
Proof.
  intros cfit fs defs l n pf cf Kl F. unfold make_epochs. cbn [load bind]. unfold dict_get at 1. rewrite Kl. cbn [bind elements].
  now rewrite (find_none n l F).
Qed.
(** neither ages nor both diameters and densities: no epoch system *)
Theorem C80_no_ages :
  forall cfit fs defs l n d ep fm ref den pf cf,
    lookup defs (L "epochs") = Some (TList l) -> first_named n l d -> basic_fields d ep fm -> lookup d (L "time") = None ->
    optional (TDict d) (L "ref_diameter") int_of = Ok ref -> optional (TDict d) (L "density") float_of = Ok den ->
    ref = None \/ den = None ->
    make_epochs cfit fs (SDict defs) n pf cf = Err TypeError.
Proof.
  intros cfit fs defs l n d ep fm ref den pf cf Kl F BF KT O1 O2 H.
  rewrite (make_found cfit fs defs l n d ep fm pf cf ref den None Kl F BF O1 O2 (optional_none _ _ _ KT)).
  destruct H as [-> | ->]; [reflexivity|destruct ref; reflexivity].
Qed.
(** one definition alone: accepted as a text, refused as a file *)
Definition one_definition : str :=
  L "epochs={" ++ nl :: L " name='Two'" ++ nl :: L " epoch=['New','Old']" ++ nl :: L " time=[0,3.5]" ++ nl :: L " formatting=[60,0b,1]" ++
  nl :: L " reference='none'" ++ nl :: L "}" ++ [nl].
Theorem C80_single_definition_in_a_file_refuted :
  exists fs name, file_get fs name = Some one_definition /\
    forall cfit pf cf,
      (exists e, make_epochs cfit fs (SText one_definition) (L "Two") pf cf = Ok e /\ ep_epoch e = TList [TStr (L "New"); TStr (L "Old")]) /\
      make_epochs cfit fs (SText name) (L "Two") pf cf = Err TypeError.
Proof.
  exists [(L "f", one_definition)], (L "f"). split; [reflexivity|]. intros cfit pf cf. split.
  - assert (E : exists l, load [(L "f", one_definition)] (SText one_definition) = Ok [(L "epochs", TList l)] /\
      exists d after, l = TDict d :: after /\ lookup d (L "name") = Some (TStr (L "Two")) /\
        lookup d (L "epoch") = Some (TList [TStr (L "New"); TStr (L "Old")]) /\ lookup d (L "formatting") = Some (TList [TStr (L "60"); TStr (L "0b"); TStr (L "1")]) /\
        lookup d (L "reference") <> None /\ lookup d (L "time") = Some (TList [TStr (L "0"); TStr (L "3.5")]) /\
        lookup d (L "ref_diameter") = None /\ lookup d (L "density") = None).
    { eexists. split; [vm_compute; reflexivity|]. eexists. eexists. split; [reflexivity|]. vm_compute. repeat split. discriminate. }
    destruct E as (l & E & d & after & -> & K1 & K2 & K3 & K4 & K5 & K6 & K7).
    exists (mkEpochs (TList [TStr (L "New"); TStr (L "Old")]) (TList [TStr (L "60"); TStr (L "0b"); TStr (L "1")])
              [(1 * IZR (nat_text (L "0")) / 10 ^ 0 * powerRZ 10 0); (1 * IZR (nat_text (L "35")) / 10 ^ 1 * powerRZ 10 0)]).
    split; [|reflexivity].
    change (make_epochs cfit [(L "f", one_definition)] (SText one_definition) (L "Two") pf cf) with
      (do! q <- load [(L "f", one_definition)] (SText one_definition); make_epochs cfit [(L "f", one_definition)] (SDict q) (L "Two") pf cf).
    rewrite E. cbn [bind].
    apply (C80_ages_given cfit _ _ (TDict d :: after) (L "Two") d _ _ [TStr (L "0"); TStr (L "3.5")] _ None None).
    + reflexivity.
    + exists [], after. split; [reflexivity|]. split; [|constructor]. exists d. auto.
    + repeat split; assumption.
    + exact K5.
    + reflexivity.
    + now apply optional_none.
    + now apply optional_none.
  - change (make_epochs cfit [(L "f", one_definition)] (SText (L "f")) (L "Two") pf cf) with
      (do! q <- load [(L "f", one_definition)] (SText (L "f")); make_epochs cfit [(L "f", one_definition)] (SDict q) (L "Two") pf cf).
    assert (E : exists d0 d, load [(L "f", one_definition)] (SText (L "f")) = Ok [(L "epochs", TDict (d0 :: d))]).
    { eexists. eexists. vm_compute. reflexivity. }
    destruct E as (d0 & d & ->). reflexivity.
Qed.

(** ** C81 *)
Definition centre (log : bool) (s e : R) : R := if log then sqrt (s * e) else (s + e) / 2.
Definition proper_names (names : list str) (ws : list (list str)) : Prop := Forall2 words_of names ws.
(** the name of an epoch is in the middle of the part of it that the axis shows, as the axis is divided; the names of epochs that are not shown are
    outside; the letters are those of the name *)
Theorem C81_names_in_the_visible_part :
  forall log ts t_min t_max names ws,
    let time := 0 :: ts in
    StronglySorted Rlt time -> 0 <= t_min < t_max -> (length names <= length time)%nat -> proper_names names ws ->
    exists r, sequence_names log time t_min t_max names = Ok r /\ map snd r = map abbreviation ws /\
      forall i, (i < length names)%nat ->
        let s := visible_from time t_min i in let e := visible_to time t_max i in
        let p := fst (nth i r (0, [])) in
        (s < e -> p = centre log s e) /\ (~ s < e -> p <= t_min \/ t_max <= p).
Proof.
  intros log ts t_min t_max names ws time SS Ht HL PN.
  destruct (sort_shown ts t_min t_max 0 SS Ht ltac:(cbn; lia)) as (L0 & _). fold time in L0.
  destruct (names_between_ok letters (fun a b => if log then sqrt (a * b) else (a + b) / 2) ([] : str) names
              (tl (sort Rleb (time ++ [t_min; t_max])))) as (r & E & Lr & N).
  { rewrite L0. lia. }
  { clear - PN. induction PN as [|n w names ws H PN IH]; constructor; auto. eexists. eapply letters_ok, H. }
  exists r. split; [exact E|]. split.
  { assert (Q : forall i, (i < length names)%nat -> letters (nth i names []) = Ok (snd (nth i r (0, [])))) by (intros i Hi; now apply N).
    clear - PN Q Lr. revert r Lr Q. induction PN as [|n w names ws H PN IH]; intros [|x r] Lr Q; try discriminate; [reflexivity|].
    cbn [map]. f_equal.
    - specialize (Q O ltac:(cbn; lia)). cbn [nth] in Q. rewrite (letters_ok _ _ H) in Q. injection Q as Q. now symmetry.
    - apply IH; [now injection Lr|]. intros i Hi. apply (Q (S i)). cbn [length]. lia. }
  intros i Hi s e p. destruct (N i Hi) as (P & _).
  assert (Hi' : (i < length time)%nat) by lia. destruct (sort_shown ts t_min t_max i SS Ht Hi') as (_ & V & W). fold time s e in V, W.
  match type of P with _ = ?q => assert (P' : p = q) by exact P end. rewrite P'. clearbody p. split.
  - intros H. destruct (V H) as (-> & ->). reflexivity.
  - intros H. destruct (W H) as [(X1 & X2)|(X1 & X2)].
    + assert (Y : forall k, (k <= S i)%nat -> 0 <= nth k (tl (sort Rleb (time ++ [t_min; t_max]))) 0).
      { intros k Hk. assert (V0 : forall v, In v (sort Rleb (time ++ [t_min; t_max])) -> 0 <= v).
        { intros v I. apply (Permutation.Permutation_in _ (Permutation.Permutation_sym (sort_perm Rleb _))) in I. apply in_app_or in I as [I|I].
          - unfold time in I. destruct I as [I|I]; [lra|]. inversion SS as [|? ? _ FA]; subst. rewrite Forall_forall in FA. specialize (FA _ I). lra.
          - destruct I as [I|[I|[]]]; lra. }
        apply V0. assert (I : In (nth k (tl (sort Rleb (time ++ [t_min; t_max]))) 0) (tl (sort Rleb (time ++ [t_min; t_max])))) by (apply nth_In; rewrite L0; lia).
        destruct (sort Rleb (time ++ [t_min; t_max])); [destruct I|]. right. exact I. }
      pose proof (Y i ltac:(lia)). pose proof (Y (S i) ltac:(lia)). left. destruct log; cbv beta iota; [|lra].
      apply Rle_trans with (sqrt (t_min * t_min)); [apply sqrt_le_1_alt, Rmult_le_compat; lra|rewrite sqrt_square; lra].
    + right. destruct log; cbv beta iota; [|lra]. apply Rle_trans with (sqrt (t_max * t_max)); [rewrite sqrt_square; lra|apply sqrt_le_1_alt, Rmult_le_compat; lra].
Qed.
(** with an axis that changes at c from logarithmic to linear, every epoch that is shown is named in at least one of the two parts *)
Theorem C81_every_shown_epoch_is_named :
  forall ts t_min c t_max names ws,
    let time := 0 :: ts in
    StronglySorted Rlt time -> 0 < t_min < c -> c < t_max -> (length names <= length time)%nat -> proper_names names ws ->
    exists r0 r1, sequence_names false time t_min t_max names = Ok r0 /\ sequence_names true time t_min t_max names = Ok r1 /\
      forall i, (i < length names)%nat -> visible_from time t_min i < visible_to time t_max i ->
        c <= fst (nth i r0 (0, [])) <= t_max \/ t_min <= fst (nth i r1 (0, [])) <= c.
Proof.
  intros ts t_min c t_max names ws time SS H1 H2 HL PN.
  destruct (C81_names_in_the_visible_part false ts t_min t_max names ws SS ltac:(lra) HL PN) as (r0 & E0 & _ & N0).
  destruct (C81_names_in_the_visible_part true ts t_min t_max names ws SS ltac:(lra) HL PN) as (r1 & E1 & _ & N1).
  fold time in E0, E1, N0, N1. exists r0, r1. split; [exact E0|]. split; [exact E1|]. intros i Hi V.
  destruct (N0 i Hi) as (P0 & _). destruct (N1 i Hi) as (P1 & _). rewrite (P0 V), (P1 V). unfold centre.
  set (s := visible_from time t_min i) in *. set (e := visible_to time t_max i) in *.
  assert (t_min <= s) by apply Rmax_l.
  assert (e <= t_max) by (unfold e, visible_to; destruct (Nat.ltb _ _); [apply Rmin_l|apply Rle_refl]).
  destruct (Rle_lt_dec c ((s + e) / 2)) as [G|G]; [left; lra|right].
  split.
  - rewrite <- (sqrt_square t_min) by lra. apply sqrt_le_1_alt. apply Rmult_le_compat; lra.
  - apply Rle_trans with ((s + e) / 2); [|lra]. rewrite <- (sqrt_square ((s + e) / 2)) by lra. apply sqrt_le_1_alt. nra.
Qed.
(** beside a chronology curve every name is at the middle of its epoch, the oldest being cut off at the end x0 of the axis *)
Theorem C81_names_beside_the_chronology :
  forall time x0 names, (length names <= length time)%nat ->
    exists r, chronology_names time x0 names = Ok r /\ map snd r = names /\
      forall i, (i < length names)%nat ->
        fst (nth i r (0, [])) = (nth i time 0 + (if Nat.ltb (S i) (length time) then nth (S i) time 0 else x0)) / 2.
Proof.
  intros time x0 names HL.
  destruct (names_between_ok (fun e : str => Ok e) (fun a b => (a + b) / 2) ([] : str) names (time ++ [x0])) as (r & E & Lr & N).
  { rewrite app_length. cbn. lia. }
  { apply Forall_forall. intros; eauto. }
  exists r. split; [exact E|]. split.
  { assert (Q : forall i, (i < length names)%nat -> nth i names [] = snd (nth i r (0, []))).
    { intros i Hi. destruct (N i Hi) as (_ & K). now injection K. }
    apply (nth_ext _ _ [] []); [now rewrite map_length|]. intros i Hi. rewrite map_length, Lr in Hi. rewrite Q by exact Hi.
    change ([] : str) with (snd (0, [] : str)) at 1. apply map_nth. }
  intros i Hi. destruct (N i Hi) as (P & _). etransitivity; [exact P|]. rewrite app_nth1 by lia. f_equal. f_equal.
  destruct (Nat.ltb_spec (S i) (length time)); [now rewrite app_nth1|]. rewrite app_nth2 by lia. now replace (S i - length time)%nat with O by lia.
Qed.
(** a name with an empty word, as two spaces make one, ends the program *)
Theorem C81_two_spaces_refuted :
  sequence_names false [0; 3] 0 4 [L "Copernican"; L "Late  Imbrian"] = Err IndexError.
Proof.
  unfold sequence_names. cbn [names_between]. replace (letters (L "Copernican")) with (Ok (L "C")) by (vm_compute; reflexivity).
  replace (letters (L "Late  Imbrian")) with (@Err str IndexError) by (vm_compute; reflexivity). cbn [bind].
  destruct (tl (sort Rleb ([0; 3] ++ [0; 4]))) as [|a [|b t]]; reflexivity.
Qed.
(** more names than ages *)
Theorem C81_too_many_names_refuted :
  forall log ts t_min t_max names ws, let time := 0 :: ts in
    StronglySorted Rlt time -> 0 <= t_min < t_max -> (length time < length names)%nat -> proper_names names ws ->
    sequence_names log time t_min t_max names = Err IndexError.
Proof.
  intros log ts t_min t_max names ws time SS Ht HL PN.
  destruct (sort_shown ts t_min t_max 0 SS Ht ltac:(cbn; lia)) as (L0 & _). fold time in L0.
  apply names_between_short.
  - rewrite L0. lia.
  - intros ->. cbn in HL. lia.
  - clear - PN. induction PN as [|n w names ws H PN IH]; constructor; auto. eexists. eapply letters_ok, H.
Qed.

(** ** C82 *)
(** formatting: the slant of the names and, for each epoch, a digit and letters *)
Theorem C82_formatting_is_decoded :
  forall slant entries, (0 <= slant)%Z -> Forall (fun e => (fst e < 10)%nat) entries ->
    exists f, decode_formatting (int_str slant :: map entry_text entries) = Ok f /\ f_slant f = slant /\
      f_colour f = map (fun e => Z.of_nat (fst e)) entries /\
      Forall2 (flagged (ch "r")) entries (f_offset f) /\ Forall2 (flagged (ch "b")) entries (f_boundary f).
Proof.
  intros slant entries Hs F. unfold decode_formatting. rewrite int_of_str by exact Hs. cbn [bind].
  assert (C : mapM colour_of (map entry_text entries) = Ok (map (fun e => Z.of_nat (fst e)) entries)).
  { induction F as [|e es He F IH]; [reflexivity|]. destruct (digit_char _ He) as (D & V & _). cbn [map mapM entry_text colour_of].
    rewrite D. cbn [bind]. rewrite IH. cbn [bind]. now rewrite V. }
  rewrite C. cbn [bind]. eexists. split; [reflexivity|]. cbn [f_slant f_colour f_offset f_boundary]. repeat split.
  - clear C. induction F as [|e es He F IH]; cbn [map]; constructor; [|exact IH]. destruct (digit_char _ He) as (_ & _ & D & _).
    unfold flagged, entry_text. rewrite mem_In. split; [intros [Q|Q]; [congruence|exact Q]|intros Q; now right].
  - clear C. induction F as [|e es He F IH]; cbn [map]; constructor; [|exact IH]. destruct (digit_char _ He) as (_ & _ & _ & D).
    unfold flagged, entry_text. rewrite mem_In. split; [intros [Q|Q]; [congruence|exact Q]|intros Q; now right].
Qed.
(** an entry that does not begin with a digit *)
Theorem C82_entry_without_digit_refuted :
  forall slant before e after, (0 <= slant)%Z ->
    match e with c :: _ => is_digit c = false | [] => True end ->
    Forall (fun x => exists y, colour_of x = Ok y) before ->
    decode_formatting (int_str slant :: before ++ e :: after) = Err ValueError.
Proof.
  intros slant before e after Hs He F. unfold decode_formatting. rewrite int_of_str by exact Hs. cbn [bind].
  assert (C : mapM colour_of (before ++ e :: after) = Err ValueError).
  { induction F as [|x before (y & Hy) F IH]; cbn [app mapM].
    - destruct e as [|c e]; [reflexivity|]. cbn [colour_of]. rewrite He. reflexivity.
    - rewrite Hy. cbn [bind]. rewrite IH. reflexivity. }
  rewrite C. reflexivity.
Qed.
(** the shading: epochs other than the youngest and the oldest, each over its own ages in its own colour *)
Theorem C82_shading :
  forall f t0 time, (length time <= length (f_colour f))%nat ->
    exists r, epoch_regions f (t0 :: time) = Ok r /\ length r = (length time - 1)%nat /\
      forall i, (1 <= i)%nat -> (i < length time)%nat ->
        nth (i - 1) r (0, 0, 0%Z) = (nth i (t0 :: time) 0, nth (S i) (t0 :: time) 0, (3 - nth i (f_colour f) 0)%Z).
Proof.
  intros f t0 time H. unfold epoch_regions. cbn [tl].
  destruct (regions_ok time (tl (f_colour f))) as (r & E & Lr & N). { destruct (f_colour f); cbn [tl length] in *; lia. }
  exists r. split; [exact E|]. split; [exact Lr|]. intros i H1 H2. rewrite N by lia. destruct i as [|i]; [lia|].
  replace (S i - 1)%nat with i by lia. cbn [nth]. do 2 f_equal. destruct (f_colour f); cbn [tl nth]; [destruct i; reflexivity|reflexivity].
Qed.
(** no age between the boundaries is shaded twice or left out *)
Theorem C82_shading_covers :
  forall f t0 time, StronglySorted Rlt time -> (length time <= length (f_colour f))%nat ->
    exists r, epoch_regions f (t0 :: time) = Ok r /\
      forall t, nth 0 time 0 <= t < last time 0 ->
        exists k, (k < length r)%nat /\
          (fst (fst (nth k r (0, 0, 0%Z))) <= t < snd (fst (nth k r (0, 0, 0%Z)))) /\
          (forall j, (j < length r)%nat -> fst (fst (nth j r (0, 0, 0%Z))) <= t < snd (fst (nth j r (0, 0, 0%Z))) -> j = k).
Proof.
  intros f t0 time SS H. destruct (C82_shading f t0 time H) as (r & E & Lr & N). exists r. split; [exact E|]. intros t Ht.
  assert (G : forall k, (k < length r)%nat -> nth k r (0, 0, 0%Z) = (nth k time 0, nth (S k) time 0, (3 - nth (S k) (f_colour f) 0)%Z)).
  { intros k Hk. rewrite Lr in Hk. specialize (N (S k) ltac:(lia) ltac:(lia)). replace (S k - 1)%nat with k in N by lia. exact N. }
  assert (M : forall i j, (i <= j)%nat -> (j < length time)%nat -> nth i time 0 <= nth j time 0).
  { intros i j Hij. induction Hij as [|j Hij IH]; intros Hj; [lra|]. pose proof (sorted_nth _ SS j Hj). specialize (IH ltac:(lia)). lra. }
  assert (X : exists k, (S k < length time)%nat /\ nth k time 0 <= t < nth (S k) time 0).
  { clear - Ht. destruct time as [|a l]; [cbn in Ht; lra|]. revert a Ht. induction l as [|b l IH]; intros a Ht; [cbn in Ht; lra|].
    destruct (Rlt_le_dec t b) as [Q|Q]; [exists O; cbn in *; split; [lia|lra]|].
    destruct (IH b) as (k & K1 & K2). { split; [exact Q|]. exact (proj2 Ht). }
    exists (S k). split; [cbn [length] in *; lia|exact K2]. }
  destruct X as (k & K1 & K2). exists k. split; [lia|]. rewrite G by lia. cbn [fst snd]. split; [exact K2|].
  intros j Hj. rewrite G by exact Hj. cbn [fst snd]. intros J. destruct (lt_eq_lt_dec j k) as [[Q|Q]|Q]; [|exact Q|]; exfalso.
  - pose proof (M (S j) k ltac:(lia) ltac:(lia)). lra.
  - pose proof (M (S k) j ltac:(lia) ltac:(lia)). lra.
Qed.
(** the dividing lines: one at every boundary, strong for the older end of the epochs with the letter b *)
Theorem C82_lines :
  forall f t0 time, (length time <= length (f_boundary f))%nat -> epoch_lines f (t0 :: time) = Ok (combine time (f_boundary f)).
Proof. intros. unfold epoch_lines. cbn [tl]. now apply lines_ok. Qed.

(** the ages written below the chronology: all but the present, in order, to three digits, the text of an age being raised if the entry of the
    epoch that begins there has the letter r *)
Theorem C82_ages_written :
  forall o offset ts, Forall (fun t => 0 < t) ts -> (length ts <= length offset)%nat ->
    exists r, written_ages (o :: offset) (0 :: ts) = Ok r /\
      Forall2 (fun e t => fst (fst e) = t /\ exists w, snd (fst e) = L " " ++ w ++ L " " /\ shows 3 t w) r ts /\
      map snd r = firstn (length ts) offset.
Proof.
  intros o offset ts F HL. cbn [written_ages]. destruct (Reqb_spec 0 0); [|congruence]. cbn [tl].
  revert offset HL. induction F as [|t ts Ht F IH]; intros offset HL.
  - exists []. split; [reflexivity|]. split; [constructor|reflexivity].
  - destruct offset as [|b offset]; [cbn in HL; lia|]. destruct (IH offset) as (r & E & F2 & M); [cbn in HL; lia|].
    exists ((t, L " " ++ fmt_g 3 t ++ L " ", b) :: r). cbn [written_ages]. destruct (Reqb_spec t 0); [lra|]. rewrite E. cbn [bind].
    split; [reflexivity|]. split; [|cbn [map length firstn]; now rewrite M].
    constructor; [|exact F2]. split; [reflexivity|]. eexists. split; [reflexivity|]. apply shows_g. lia.
Qed.

(** ** C83 *)
(** the isochrons drawn are those listed, in order, with the settings of each; what is not a number is passed over *)
Theorem C83_isochrons_listed :
  forall es out, es <> [] -> shown es out -> Forall (fun e => Forall flag (snd e)) es ->
    Forall (fun e => ~ In (ch ",") (iso_text e)) es ->
    parse_isochrons (join (L ",") (map iso_text es)) = out.
Proof.
  intros es out NE Sh F C. unfold parse_isochrons. change (L ",") with [ch ","]. rewrite split_chr_join.
  - now apply shown_entries.
  - destruct es; [congruence|discriminate].
  - apply Forall_map. exact C.
Qed.
Theorem C83_ages_are_not_negative : forall s t h a sm, In (t, h, a, sm) (parse_isochrons s) -> 0 <= t.
Proof.
  intros s t h a sm H. unfold parse_isochrons in H. apply in_flat_map in H as (e & _ & H). destruct (py_float _) as [v|x]; [|destruct H].
  destruct H as [H|[]]. injection H as <- _ _ _. apply Rabs_pos.
Qed.

(** ** The hypotheses are met *)
(** the Martian epochs of Michael (2013): their first two boundaries, with a production function and the chronology of Neukum (1983) *)
Definition two_densities : list (str * tsval) :=
  [(L "name", TStr (L "Mars")); (L "epoch", TList [TStr (L "Late Amazonian"); TStr (L "Middle Amazonian"); TStr (L "Early Amazonian")]);
   (L "formatting", TList [TStr (L "90"); TStr (L "0"); TStr (L "1"); TStr (L "2b")]);
   (L "ref_diameter", TList [TStr (L "1"); TStr (L "5")]); (L "density", TList [TStr (L "160"); TStr (L "125")]);
   (L "reference", TStr (L "Michael (2013)"))].
Example C80_hypotheses_met :
  exists cfit ref den, solves_least_squares cfit /\ built (Poly [-3; -3] (1 / 10) 100) /\ positive_coefficients neukum83 /\
    first_named (L "Mars") [TDict [(L "name", TStr (L "Moon"))]; TDict two_densities] two_densities /\
    basic_fields two_densities (TList [TStr (L "Late Amazonian"); TStr (L "Middle Amazonian"); TStr (L "Early Amazonian")])
      (TList [TStr (L "90"); TStr (L "0"); TStr (L "1"); TStr (L "2b")]) /\
    lookup two_densities (L "time") = None /\
    mapM int_of [TStr (L "1"); TStr (L "5")] = Ok ref /\ Forall (fun z => (0 < z)%Z) ref /\
    mapM float_of [TStr (L "160"); TStr (L "125")] = Ok den /\ Forall (fun x => 0 < x) den.
Proof.
  destruct a_solver as (cfit & LS). exists cfit, [1; 5]%Z, [160; 125].
  split; [exact LS|]. split; [constructor|]. split; [exact neukum83_positive|]. split.
  { exists [TDict [(L "name", TStr (L "Moon"))]], []. split; [reflexivity|]. split; [eexists; split; reflexivity|].
    constructor; [|constructor]. exists (L "Moon"). split; [eexists; split; reflexivity|discriminate]. }
  split; [repeat split; discriminate|]. split; [reflexivity|]. split; [reflexivity|]. split; [repeat constructor|]. split.
  - assert (Q : mapM float_of [TStr (L "160"); TStr (L "125")] =
        Ok [1 * IZR (nat_text (L "160")) / 10 ^ 0 * powerRZ 10 0; 1 * IZR (nat_text (L "125")) / 10 ^ 0 * powerRZ 10 0]) by reflexivity.
    rewrite Q. replace (nat_text (L "160")) with 160%Z by reflexivity. replace (nat_text (L "125")) with 125%Z by reflexivity.
    cbn [powerRZ pow]. do 2 f_equal; [field|f_equal; field].
  - repeat constructor; lra.
Qed.
Example C81_hypotheses_met :
  StronglySorted Rlt [0; 11 / 10; 32 / 10] /\ proper_names [L "Copernican"; L "Late Imbrian"; L "Pre-Nectarian"]
    [[L "Copernican"]; [L "Late"; L "Imbrian"]; [L "Pre"; L "Nectarian"]] /\
  map abbreviation [[L "Copernican"]; [L "Late"; L "Imbrian"]; [L "Pre"; L "Nectarian"]] = [L "C"; L "lI"; L "pN"] /\
  visible_from [0; 11 / 10; 32 / 10] (1 / 10) 0 < visible_to [0; 11 / 10; 32 / 10] 4 0.
Proof.
  assert (W : forall w, w <> [] -> forallb (fun c => negb (mem c (L " -"))) w = true -> word w).
  { intros w N F. split; [exact N|]. rewrite forallb_forall in F. apply Forall_forall. intros c Hc S. apply mem_sep in S. specialize (F c Hc). rewrite S in F. discriminate. }
  split; [|split; [|split; [reflexivity|]]].
  - repeat constructor; lra.
  - unfold proper_names. apply Forall2_cons; [|apply Forall2_cons; [|apply Forall2_cons; [|constructor]]].
    + constructor. apply W; [discriminate|reflexivity].
    + apply (words_more (L "Late") (ch " ") (L "Imbrian") [L "Imbrian"]); [apply W; [discriminate|reflexivity]|now left|].
      constructor. apply W; [discriminate|reflexivity].
    + apply (words_more (L "Pre") (ch "-") (L "Nectarian") [L "Nectarian"]); [apply W; [discriminate|reflexivity]|now right|].
      constructor. apply W; [discriminate|reflexivity].
  - unfold visible_from, visible_to. cbn [nth length Nat.ltb Nat.leb]. unfold Rmax, Rmin. destruct (Rle_dec (1 / 10) 0), (Rle_dec 4 (11 / 10)); lra.
Qed.
Example C82_hypotheses_met :
  map entry_text [(0%nat, L "b"); (1%nat, L ""); (2%nat, L "rb")] = [L "0b"; L "1"; L "2rb"] /\ int_str 60 = L "60" /\
  Forall (fun e : nat * str => (fst e < 10)%nat) [(0%nat, L "b"); (1%nat, L ""); (2%nat, L "rb")].
Proof. split; [reflexivity|]. split; [vm_compute; reflexivity|]. repeat constructor; cbn; lia. Qed.
Example C83_hypotheses_met :
  exists v, shown [(L "3.5", L "ah"); (L "x", L ""); (L "-1", L "")] [(Rabs v, true, true, false); (Rabs (-1), false, false, false)] /\ v = 35 / 10 /\
    join (L ",") (map iso_text [(L "3.5", L "ah"); (L "x", L ""); (L "-1", L "")]) = L "3.5ah,x,-1".
Proof.
  assert (NF : forall t, forallb (fun c => negb (mem c (L "ash"))) t = true -> Forall (fun c => ~ flag c) t).
  { intros t F. rewrite forallb_forall in F. apply Forall_forall. intros c Hc S. apply mem_flag in S. specialize (F c Hc). rewrite S in F. discriminate. }
  exists (1 * IZR (nat_text (L "35")) / 10 ^ 1 * powerRZ 10 0). split; [|split; [|reflexivity]].
  - apply shown_age; [reflexivity|discriminate|now apply NF| | | |]; [rewrite <- mem_In; vm_compute; tauto..|].
    apply (shown_other (L "x") (L "") ValueError); [reflexivity|right; rewrite <- mem_flag; vm_compute; discriminate|].
    assert (E : py_float (L "-1") = Ok (-1)).
    { assert (Q : py_float (L "-1") = Ok (-1 * IZR (nat_text (L "1")) / 10 ^ 0 * powerRZ 10 0)) by reflexivity. rewrite Q.
      replace (nat_text (L "1")) with 1%Z by reflexivity. cbn [powerRZ pow]. f_equal. field. }
    apply shown_age; [exact E|discriminate|now apply NF| | | |constructor]; rewrite <- mem_In; vm_compute; tauto.
  - replace (nat_text (L "35")) with 35%Z by reflexivity. cbn [powerRZ pow]. field.
Qed.

Print Assumptions C80_boundaries_from_densities.
Print Assumptions C80_denser_is_older.
Print Assumptions C80_ages_given.
Print Assumptions C80_unknown_name.
Print Assumptions C80_no_ages.
Print Assumptions C80_single_definition_in_a_file_refuted.
Print Assumptions C81_names_in_the_visible_part.
Print Assumptions C81_every_shown_epoch_is_named.
Print Assumptions C81_names_beside_the_chronology.
Print Assumptions C81_two_spaces_refuted.
Print Assumptions C81_too_many_names_refuted.
Print Assumptions C82_formatting_is_decoded.
Print Assumptions C82_entry_without_digit_refuted.
Print Assumptions C82_shading.
Print Assumptions C82_shading_covers.
Print Assumptions C82_lines.
Print Assumptions C82_ages_written.
Print Assumptions C83_isochrons_listed.
Print Assumptions C83_ages_are_not_negative.
