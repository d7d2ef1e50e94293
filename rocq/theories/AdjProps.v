(** The standard deviation of adjacent area, outlines of cells, single trials, and significances. *)
From Coq Require Import String Ascii List ZArith Reals Bool Permutation Sorted Lia Lra.
From Verif Require Import Base NumModel NumLemmas InterpProofs StrModel StrProofs RaModel RaSpec RaProofs RaProofs2 RaProofs3 RaProofs4 RaProps AdjModel AdjSpec AdjProofs.
Import ListNotations.
Local Open Scope R_scope.

Lemma mapM_inv {A B} (g : A -> res B) l : forall r, mapM g l = Ok r -> Forall2 (fun x y => g x = Ok y) l r.
Proof.
  induction l as [|x l IH]; intros r E; cbn [mapM] in E; [injection E as <-; constructor|].
  destruct (g x) as [y|] eqn:G; [|discriminate]. cbn [bind] in E. destruct (mapM g l) as [ys|]; [|discriminate]. injection E as <-. constructor; auto.
Qed.
Lemma mapM_Forall2 {A B} (g : A -> res B) l r : Forall2 (fun x y => g x = Ok y) l r -> mapM g l = Ok r.
Proof. induction 1 as [|x y l r E _ IH]; [reflexivity|]. cbn [mapM]. rewrite E. cbn [bind]. rewrite IH. reflexivity. Qed.
Lemma mapM_perm {A B} (g : A -> res B) l l' r : Permutation l l' -> mapM g l = Ok r -> exists r', mapM g l' = Ok r' /\ Permutation r r'.
Proof.
  intros P. revert r. induction P as [|x l l' P IH|x y l|l m n P1 IH1 P2 IH2]; intros r E.
  - exists r. split; [exact E|reflexivity].
  - cbn [mapM] in *. destruct (g x) as [z|]; [|discriminate]. cbn [bind] in *. destruct (mapM g l) as [zs|]; [|discriminate]. destruct (IH zs eq_refl) as (r' & E' & P'). rewrite E'. cbn [bind] in *. injection E as <-. eexists. split; [reflexivity|]. now constructor.
  - cbn [mapM] in *. destruct (g y) as [b|]; [|discriminate]. destruct (g x) as [a|]; [|discriminate]. cbn [bind] in *. destruct (mapM g l) as [zs|]; [|discriminate]. cbn [bind] in *. injection E as <-. eexists. split; [reflexivity|]. constructor.
  - destruct (IH1 r E) as (r1 & E1 & Q1). destruct (IH2 r1 E1) as (r2 & E2 & Q2). exists r2. split; [exact E2|]. now transitivity r1.
Qed.
Lemma pyindex_ok {A} (l : list A) i v : (0 <= i)%Z -> nth_error l (Z.to_nat i) = Some v -> pyindex l i = Ok v.
Proof. intros H E. unfold pyindex. destruct (Z.ltb_spec i 0); [lia|]. destruct (Z.ltb_spec i 0); [lia|]. now rewrite E. Qed.
Lemma corners_read {A} (vs : list A) rs ls : Forall2 (corners vs) rs ls -> mapM (fun region => mapM (fun id => pyindex vs id) region) rs = Ok ls.
Proof.
  intros F. apply mapM_Forall2. induction F as [|r l rs ls C _ IH]; constructor; [|exact IH]. apply mapM_Forall2. induction C as [|i v r l [P E] _ IHc]; constructor; [|exact IHc]. now apply pyindex_ok.
Qed.
Lemma sdaa_areas (l : list R) (m : R) {B} (c r : B) : (match l with [] => Err NotANumber | _ => Ok (std l, c) end) = Ok (m, r) -> l <> [] /\ m = std l /\ r = c.
Proof. destruct l; [discriminate|]. intros E. injection E as <- <-. split; [discriminate|]. split; reflexivity. Qed.

Lemma on_sphere_units {A} (f : A -> R * R) l : Forall unit_vector (map (fun p => on_sphere (f p)) l).
Proof.
  apply Forall_forall. intros v I. apply in_map_iff in I. destruct I as (p & <- & _). unfold on_sphere, unit_vector. pose proof (sin2_cos2 (fst (f p) * (PI / 180))) as A1. pose proof (sin2_cos2 (snd (f p) * (PI / 180))) as A2. unfold Rsqr in *.
  set (c := cos (snd (f p) * (PI / 180))) in *. set (s := sin (snd (f p) * (PI / 180))) in *. set (c1 := cos (fst (f p) * (PI / 180))) in *. set (s1 := sin (fst (f p) * (PI / 180))) in *.
  replace ((c * c1) ^ 2 + (c * s1) ^ 2 + s ^ 2) with (c * c * (s1 * s1 + c1 * c1) + s * s) by ring. rewrite A1. lra.
Qed.

(** * C119 *)
Section C119.
Context {Point Shape : Type}.
Variables (lonlat : Point -> R * R) (voronoi : list xyz -> res diagram) (create_polygon : list (R * R) -> res Shape) (intersection : Shape -> Shape -> res Shape) (area : R -> Shape -> R) (polygon : Shape) (radius : R).
(** the corners of a cell are given to the geometry library as the longitudes and latitudes of the very points of the sphere *)
Theorem C119_places : (forall v, unit_vector v -> on_sphere (to_lonlat v) = v /\ -180 < fst (to_lonlat v) <= 180 /\ -90 <= snd (to_lonlat v) <= 90) /\
  (forall p, -180 < fst p <= 180 -> -90 < snd p < 90 -> to_lonlat (on_sphere p) = p).
Proof.
  split; [intros v U; split; [rewrite <- to_xyz_on_sphere; now apply to_xyz_to_lonlat|now apply to_lonlat_range]|intros p A B; rewrite <- to_xyz_on_sphere; now apply to_lonlat_to_xyz].
Qed.
(** what the measure is: for cells with corners on the sphere, the standard deviation of the areas of their parts in the counting area *)
Theorem C119_measure pts m cells : (forall ps vs rs, Forall unit_vector ps -> voronoi ps = Ok (mkDiagram vs rs) -> Forall unit_vector vs /\ exists ls, Forall2 (corners vs) rs ls) ->
  sdaa lonlat voronoi create_polygon intersection area polygon radius pts = Ok (m, cells) ->
  exists vs rs, voronoi (map (fun p => on_sphere (lonlat p)) pts) = Ok (mkDiagram vs rs) /\
    Forall2 (fun region cell => exists places whole, corners vs region (map on_sphere places) /\ create_polygon places = Ok whole /\ intersection polygon whole = Ok cell) rs cells /\
    deviation (map (area radius) cells) m /\ (m = 0 <-> forall c c', In c cells -> In c' cells -> area radius c = area radius c').
Proof.
  intros V E. unfold sdaa in E. rewrite (map_ext _ (fun p => on_sphere (lonlat p)) (fun p => to_xyz_on_sphere (lonlat p))) in E.
  destruct (voronoi (map (fun p => on_sphere (lonlat p)) pts)) as [[vs rs]|] eqn:EV; [|discriminate]. cbn [bind v_vertices v_regions] in E. destruct (V _ _ _ (on_sphere_units lonlat pts) EV) as (U & ls & C). rewrite (corners_read _ _ _ C) in E. cbn [bind] in E.
  destruct (mapM create_polygon (map (map to_lonlat) ls)) as [ws|] eqn:EW; [|discriminate]. cbn [bind] in E. destruct (mapM (intersection polygon) ws) as [cs|] eqn:EC; [|discriminate]. cbn [bind] in E. apply sdaa_areas in E. destruct E as (NE & -> & ->).
  exists vs, rs. split; [reflexivity|]. apply mapM_inv in EW, EC. split; [|split; [now apply std_deviation|]].
  - clear NE EV V. revert ws cs EW EC. induction C as [|region l rs ls C _ IH]; intros ws cs EW EC; cbn [map] in EW; inversion EW as [|? w ? ws' W1 W2]; subst; inversion EC as [|? c ? cs' C1 C2]; subst; constructor; [|eapply IH; eassumption].
    exists (map to_lonlat l), w. split; [|split; assumption]. assert (map on_sphere (map to_lonlat l) = l) as ->; [|exact C]. rewrite map_map. rewrite <- (map_id l) at 2. apply map_ext_in. intros v I. rewrite <- to_xyz_on_sphere. apply to_xyz_to_lonlat.
    clear - C I U. induction C as [|i x r l [_ E] _ IHc]; [destruct I|]. destruct I as [->|I]; [|now apply IHc]. apply nth_error_In in E. now apply (proj1 (Forall_forall _ _) U).
  - rewrite (std_zero _ NE). split; intros H.
    + intros c c' I I'. apply H; apply in_map_iff; eauto.
    + intros x y I I'. apply in_map_iff in I, I'. destruct I as (c & <- & I), I' as (c' & <- & I'). now apply H.
Qed.
(** in a counting area that the cells share out: the mean square of the areas less the square of the fair share; no more than if one cell had it all *)
Theorem C119_shared_out pts m cells total : sdaa lonlat voronoi create_polygon intersection area polygon radius pts = Ok (m, cells) ->
  Rsum (map (area radius) cells) = total -> Forall (fun c => 0 <= area radius c) cells ->
  let n := INR (length cells) in
  m ^ 2 = Rsum (map (fun c => area radius c ^ 2) cells) / n - (total / n) ^ 2 /\ 0 <= m /\ m ^ 2 <= (total / n) ^ 2 * (n - 1).
Proof.
  intros E T P n. unfold sdaa in E. destruct (voronoi _) as [sv|]; [|discriminate]. cbn [bind] in E. destruct (mapM _ (v_regions sv)) as [ls|]; [|discriminate]. cbn [bind] in E.
  destruct (mapM create_polygon _) as [ws|]; [|discriminate]. cbn [bind] in E. destruct (mapM (intersection polygon) ws) as [cs|]; [|discriminate]. cbn [bind] in E. apply sdaa_areas in E. destruct E as (NE & -> & ->).
  set (l := map (area radius) cs) in *. pose proof (len_pos l NE) as LP. assert (N : n = INR (length l)) by (unfold n, l; now rewrite map_length). pose proof (variance_mean_square l NE) as V. unfold mean in V. rewrite map_length, T, <- N in V. assert (SQ : map (fun x => x ^ 2) l = map (fun c => area radius c ^ 2) cs) by (unfold l; now rewrite map_map). rewrite SQ in V.
  split; [exact V|]. split; [apply std_nonneg|]. rewrite V. rewrite N in *. assert (Q : Rsum (map (fun c => area radius c ^ 2) cs) <= total ^ 2).
  { rewrite <- T. clear - P. unfold l. induction P as [|c cs Pc Ps IH]; [cbn; lra|]. cbn [map Rsum]. assert (0 <= Rsum (map (area radius) cs)). { apply Rsum_nonneg. apply Forall_forall. intros y I. apply in_map_iff in I. destruct I as (x & <- & I). now apply (proj1 (Forall_forall _ _) Ps). } nra. }
  apply (Rmult_le_reg_r (INR (length l))); [exact LP|]. replace ((Rsum (map (fun c => area radius c ^ 2) cs) / INR (length l) - (total / INR (length l)) ^ 2) * INR (length l)) with (Rsum (map (fun c => area radius c ^ 2) cs) - total ^ 2 / INR (length l)) by (field; lra).
  replace ((total / INR (length l)) ^ 2 * (INR (length l) - 1) * INR (length l)) with (total ^ 2 - total ^ 2 / INR (length l)) by (field; lra). lra.
Qed.
(** the order of the craters does not matter *)
Theorem C119_order pts pts' m cells :
  (forall ps qs vs rs, Permutation ps qs -> voronoi ps = Ok (mkDiagram vs rs) ->
     exists ls vs' rs' ls', Forall2 (corners vs) rs ls /\ voronoi qs = Ok (mkDiagram vs' rs') /\ Forall2 (corners vs') rs' ls' /\ Permutation ls ls') ->
  Permutation pts pts' -> sdaa lonlat voronoi create_polygon intersection area polygon radius pts = Ok (m, cells) ->
  exists cells', sdaa lonlat voronoi create_polygon intersection area polygon radius pts' = Ok (m, cells') /\ Permutation cells cells'.
Proof.
  intros V P E. unfold sdaa in *. pose proof (Permutation_map (fun p => to_xyz (lonlat p)) P) as PX. destruct (voronoi (map _ pts)) as [[vs rs]|] eqn:EV; [|discriminate]. cbn [bind v_vertices v_regions] in E.
  destruct (V _ _ _ _ PX EV) as (ls & vs' & rs' & ls' & C & EV' & C' & PL). rewrite EV'. cbn [bind v_vertices v_regions]. rewrite (corners_read _ _ _ C) in E. rewrite (corners_read _ _ _ C'). cbn [bind] in *.
  destruct (mapM create_polygon (map (map to_lonlat) ls)) as [ws|] eqn:EW; [|discriminate]. cbn [bind] in E. destruct (mapM_perm _ _ _ _ (Permutation_map (map to_lonlat) PL) EW) as (ws' & -> & PW). cbn [bind].
  destruct (mapM (intersection polygon) ws) as [cs|] eqn:EC; [|discriminate]. cbn [bind] in E. destruct (mapM_perm _ _ _ _ PW EC) as (cs' & -> & PC). cbn [bind]. apply sdaa_areas in E. destruct E as (NE & -> & ->).
  exists cs'. split; [|exact PC]. pose proof (Permutation_map (area radius) PC) as PA. rewrite (std_perm _ _ PA). destruct (map (area radius) cs') as [|a l] eqn:A; [|reflexivity]. exfalso. apply NE. apply Permutation_sym in PA. now apply Permutation_nil in PA.
Qed.
(** on a globe k times as large it is k squared times as large, with the same cells *)
Theorem C119_radius k pts m cells : (forall c, area (k * radius) c = k ^ 2 * area radius c) ->
  sdaa lonlat voronoi create_polygon intersection area polygon radius pts = Ok (m, cells) ->
  sdaa lonlat voronoi create_polygon intersection area polygon (k * radius) pts = Ok (k ^ 2 * m, cells).
Proof.
  intros K E. unfold sdaa in *. destruct (voronoi _) as [sv|]; [|discriminate]. cbn [bind] in *. destruct (mapM _ (v_regions sv)) as [ls|]; [|discriminate]. cbn [bind] in *.
  destruct (mapM create_polygon _) as [ws|]; [|discriminate]. cbn [bind] in *. destruct (mapM (intersection polygon) ws) as [cs|]; [|discriminate]. cbn [bind] in *. apply sdaa_areas in E. destruct E as (NE & -> & ->).
  assert (Q : map (area (k * radius)) cs = map (fun x => k ^ 2 * x + 0) (map (area radius) cs)). { rewrite map_map. apply map_ext. intros c. rewrite K. lra. }
  rewrite Q. pose proof (std_affine (k ^ 2) 0 _ NE (pow2_ge_0 k)) as S. destruct (map (area radius) cs) as [|a l]; [congruence|]. cbn [map] in *. now rewrite S.
Qed.
End C119.
Print Assumptions C119_places.
Print Assumptions C119_measure.
Print Assumptions C119_shared_out.
Print Assumptions C119_order.
Print Assumptions C119_radius.
(** each point is the only corner of its cell: all that the theorems assume of the diagram holds *)
Definition ex_voronoi (ps : list xyz) : res diagram := Ok (mkDiagram ps (map (fun i => [Z.of_nat i]) (seq 0 (length ps)))).
Definition ex_area (r : R) (s : list (R * R)) : R := r ^ 2 * Rsum (map (fun p => Rabs (snd p)) s).
Lemma ex_corners (ps : list xyz) : Forall2 (corners ps) (map (fun i => [Z.of_nat i]) (seq 0 (length ps))) (map (fun v => [v]) ps).
Proof.
  assert (Q : forall l pre : list xyz, Forall2 (corners (pre ++ l)) (map (fun i => [Z.of_nat i]) (seq (length pre) (length l))) (map (fun v => [v]) l)); [|exact (Q ps [])].
  induction l as [|v l IH]; intros pre; [constructor|]. cbn [length seq map]. constructor.
  - constructor; [|constructor]. split; [lia|]. rewrite Nat2Z.id, nth_error_app2, Nat.sub_diag by lia. reflexivity.
  - specialize (IH (pre ++ [v])). rewrite <- app_assoc, app_length in IH. cbn [app length] in IH. now rewrite Nat.add_1_r in IH.
Qed.
Example C119_hypotheses_met :
  (forall ps qs vs rs, Permutation ps qs -> ex_voronoi ps = Ok (mkDiagram vs rs) ->
     exists ls vs' rs' ls', Forall2 (corners vs) rs ls /\ ex_voronoi qs = Ok (mkDiagram vs' rs') /\ Forall2 (corners vs') rs' ls' /\ Permutation ls ls') /\
  (forall c, ex_area (2 * 3) c = 2 ^ 2 * ex_area 3 c) /\ unit_vector (3 / 5, 0, 4 / 5) /\
  exists m cells, sdaa (fun p : R * R => p) ex_voronoi (fun l => Ok l) (fun _ c => Ok c) ex_area [] 1 [(10, 20); (30, 40)] = Ok (m, cells) /\ Forall (fun c => 0 <= ex_area 1 c) cells /\ 0 < m.
Proof.
  split.
  { intros ps qs vs rs P E. unfold ex_voronoi in E. injection E as <- <-. do 4 eexists. split; [apply ex_corners|]. split; [reflexivity|]. split; [apply ex_corners|]. now apply Permutation_map. }
  split; [intros c; unfold ex_area; ring|]. split; [cbn; lra|]. unfold sdaa, ex_voronoi. cbn [bind v_vertices v_regions]. rewrite (corners_read _ _ _ (ex_corners _)). cbn [bind map]. unfold mapM. cbn [bind].
  rewrite !to_lonlat_to_xyz by (cbn; lra). do 2 eexists. split; [reflexivity|]. split.
  - repeat constructor; unfold ex_area; cbn [map snd Rsum]; rewrite Rabs_right; lra.
  - set (l := map (ex_area 1) [[(10, 20)]; [(30, 40)]]). destruct (std_nonneg l) as [H|H]; [exact H|]. symmetry in H. exfalso. assert (N : l <> []) by discriminate.
    assert (Q : ex_area 1 [(10, 20)] = ex_area 1 [(30, 40)]) by (apply (proj1 (std_zero l N) H); cbn; auto). unfold ex_area in Q. cbn [map snd Rsum] in Q. rewrite !Rabs_right in Q by lra. lra.
Qed.

(** * C120 *)
Lemma sides_seq ring : map (fun i => (nth i ring (0, 0), nth ((i + 1) mod length ring) ring (0, 0))) (seq 0 (length ring)) = sides ring.
Proof.
  destruct ring as [|p r]; [reflexivity|]. unfold sides. set (n := length (p :: r)). apply (nth_ext _ _ ((0, 0), (0, 0)) ((0, 0), (0, 0))).
  - rewrite map_length, seq_length, combine_length, app_length. unfold n. cbn [length]. lia.
  - intros i Hi. rewrite map_length, seq_length in Hi. rewrite nth_map_seq by exact Hi. rewrite combine_nth by (rewrite app_length; cbn; lia). f_equal.
    unfold n in *. cbn [length] in *. destruct (Nat.eq_dec (S i) (S (length r))) as [e|e].
    + rewrite Nat.add_1_r, e, Nat.mod_same by lia. injection e as ->. rewrite app_nth2, Nat.sub_diag by lia. reflexivity.
    + rewrite Nat.add_1_r, Nat.mod_small by lia. cbn [nth]. rewrite app_nth1 by lia. reflexivity.
Qed.
Lemma outline_sides inv fwd ring : outline inv fwd ring = flat_map (fun s => side inv fwd (fst s) (snd s)) (sides ring).
Proof. unfold outline. rewrite <- sides_seq, flat_map_concat_map, flat_map_concat_map, map_map. reflexivity. Qed.
Lemma fractions_parts : fractions = map (fun i => INR i / 20) (seq 0 20).
Proof. unfold fractions, linspace. apply map_ext. intros i. replace (INR (20 - 1)) with 19 by (cbn; lra). field. Qed.
Lemma side_long inv fwd p q : interp_threshold < snd (inv p q) -> side inv fwd p q = map (fun i => fwd p (fst (inv p q)) (snd (inv p q) * (INR i / 20))) (seq 0 20).
Proof. intros H. unfold side. destruct (inv p q) as [az d]. cbn [fst snd] in *. destruct (Rltb_spec interp_threshold d); [|lra]. now rewrite fractions_parts, map_map. Qed.
Lemma side_short inv fwd p q : snd (inv p q) <= interp_threshold -> side inv fwd p q = [p].
Proof. intros H. unfold side. destruct (inv p q) as [az d]. cbn [fst snd] in *. destruct (Rltb_spec interp_threshold d); [lra|reflexivity]. Qed.
Lemma Sorted_map_seq {A} (Rel : A -> A -> Prop) (f : nat -> A) n : forall a, (forall i, (a <= i)%nat -> (S i < a + n)%nat -> Rel (f i) (f (S i))) -> Sorted Rel (map f (seq a n)).
Proof.
  induction n as [|n IH]; intros a H; [constructor|]. cbn [seq map]. constructor; [apply IH; intros i Ha Hb; apply H; lia|]. destruct n as [|n]; cbn [seq map]; constructor. apply H; lia.
Qed.
Lemma Sorted_app_link {A} (Rel : A -> A -> Prop) l x m : Sorted Rel (l ++ [x]) -> Sorted Rel (x :: m) -> Sorted Rel (l ++ x :: m).
Proof.
  induction l as [|y l IH]; intros S1 S2; [exact S2|]. cbn [app] in *. inversion S1 as [|? ? S1' H]; subst. constructor; [now apply IH|]. destruct l; cbn [app] in *; inversion H; subst; now constructor.
Qed.
Section C120.
Variables (dist : R * R -> R * R -> R) (inv : R * R -> R * R -> R * R) (fwd : R * R -> R -> R -> R * R).
Lemma side_chain p q longest : geodesic dist inv fwd p q -> dist p q <= longest -> exists rest, side inv fwd p q = p :: rest /\ Sorted (fun x y => dist x y <= Rmax (2 * PI / 1800) (longest / 20)) (p :: rest ++ [q]).
Proof.
  intros (D & P & F0 & F1 & G) B. destruct (Rle_or_lt (snd (inv p q)) interp_threshold) as [W|W].
  - exists []. rewrite side_short by exact W. split; [reflexivity|]. cbn [app]. apply Sorted_cons; [apply Sorted_cons; constructor|]. apply HdRel_cons. eapply Rle_trans; [|apply Rmax_l]. rewrite <- D. exact W.
  - rewrite side_long by exact W. set (az := fst (inv p q)) in *. set (d := snd (inv p q)) in *. clearbody az d. set (f := fun i : nat => fwd p az (d * (INR i / 20))). exists (map f (seq 1 19)).
    assert (E0 : f 0%nat = p) by (unfold f; cbn [INR]; replace (d * (0 / 20)) with 0 by field; exact F0). assert (E1 : f 20%nat = q) by (unfold f; replace (INR 20) with 20 by (cbn; lra); replace (d * (20 / 20)) with d by field; exact F1).
    split; [change (seq 0 20) with (0%nat :: seq 1 19); cbn [map]; now rewrite E0|]. assert (L : p :: map f (seq 1 19) ++ [q] = map f (seq 0 21)).
    { change (seq 0 21) with (0%nat :: (seq 1 19 ++ [20%nat])). cbn [map]. rewrite map_app. cbn [map]. now rewrite E0, E1. }
    rewrite L. apply Sorted_map_seq. intros i _ Hi. unfold f. eapply Rle_trans; [|apply Rmax_r].
    assert (I : INR (S i) <= 20) by (replace 20 with (INR 20) by (cbn; lra); apply le_INR; lia). rewrite S_INR in I |- *. pose proof (pos_INR i). rewrite G; [|nra|nra|nra]. rewrite <- D in B. lra.
Qed.
(** each corner is drawn, and then, on a side longer than a fifth of a degree, the 19 places that divide it in 20 *)
Theorem C120_outline ring : Forall (fun s => geodesic dist inv fwd (fst s) (snd s)) (sides ring) ->
  exists parts, outline inv fwd ring = concat parts /\
    Forall2 (fun s part => exists between, part = fst s :: between /\
      (dist (fst s) (snd s) <= 2 * PI / 1800 -> between = []) /\
      (2 * PI / 1800 < dist (fst s) (snd s) -> length between = 19%nat /\
         forall k, (1 <= k <= 19)%nat -> part_of_way dist (fst s) (snd s) (INR k / 20) (nth (k - 1) between (0, 0)))) (sides ring) parts.
Proof.
  intros G. rewrite outline_sides. exists (map (fun s => side inv fwd (fst s) (snd s)) (sides ring)). split; [apply flat_map_concat_map|]. induction G as [|[p q] l Gs _ IH]; [constructor|]. cbn [map]. constructor; [|exact IH]. clear IH. cbn [fst snd] in *.
  destruct Gs as (D & P & F0 & F1 & G). fold interp_threshold. destruct (Rle_or_lt (snd (inv p q)) interp_threshold) as [W|W].
  - exists []. rewrite side_short by exact W. split; [reflexivity|]. split; [reflexivity|]. intros H. rewrite D in W. lra.
  - rewrite side_long by exact W. rewrite D in *. set (az := fst (inv p q)) in *. set (d := dist p q) in *. set (f := fun i : nat => fwd p az (d * (INR i / 20))). exists (map f (seq 1 19)).
    assert (E0 : f 0%nat = p) by (unfold f; cbn [INR]; replace (d * (0 / 20)) with 0 by field; exact F0).
    split; [change (seq 0 20) with (0%nat :: seq 1 19); cbn [map]; now rewrite E0|]. split; [intros H; lra|]. intros _. split; [now rewrite map_length, seq_length|]. intros k K.
    assert (nth (k - 1) (map f (seq 1 19)) (0, 0) = f k) as ->. { rewrite (nth_indep _ (0, 0) (f 0%nat)) by (rewrite map_length, seq_length; lia). rewrite map_nth, seq_nth by lia. f_equal. lia. }
    assert (I : 0 <= INR k <= 20) by (split; [apply pos_INR|replace 20 with (INR 20) by (cbn; lra); apply le_INR; lia]). clearbody az. unfold part_of_way, f. fold d. clearbody d. split.
    + rewrite <- F0 at 1. rewrite G; [field|lra|nra|nra].
    + rewrite <- F1 at 1. rewrite G; [field|nra|nra|lra].
Qed.
(** all the way round, no step is longer than a fifth of a degree or a twentieth of the longest side *)
Theorem C120_no_gaps first others longest : Forall (fun s => geodesic dist inv fwd (fst s) (snd s) /\ dist (fst s) (snd s) <= longest) (sides (first :: others)) ->
  Sorted (fun p q => dist p q <= Rmax (2 * PI / 1800) (longest / 20)) (outline inv fwd (first :: others) ++ [first]).
Proof.
  rewrite outline_sides. unfold sides. enough (Q : forall q r p, Forall (fun s => geodesic dist inv fwd (fst s) (snd s) /\ dist (fst s) (snd s) <= longest) (combine (p :: r) (r ++ [q])) ->
    exists rest, flat_map (fun s => side inv fwd (fst s) (snd s)) (combine (p :: r) (r ++ [q])) = p :: rest /\ Sorted (fun p q => dist p q <= Rmax (2 * PI / 1800) (longest / 20)) (p :: rest ++ [q])).
  { intros F. destruct (Q first others first F) as (rest & E & S). rewrite E. exact S. }
  intros q. induction r as [|p' r IH]; intros p F; cbn [app combine] in F |- *; inversion F as [|? ? [G B] F']; subst; cbn [fst snd flat_map] in *.
  - destruct (side_chain p q longest G B) as (rest & E & W). rewrite E. exists rest. rewrite app_nil_r. auto.
  - destruct (side_chain p p' longest G B) as (rest & E & S). rewrite E. destruct (IH p' F') as (rest' & E' & S'). cbn [app combine] in E'. rewrite E'. exists (rest ++ p' :: rest'). split; [reflexivity|].
    replace (p :: (rest ++ p' :: rest') ++ [q]) with ((p :: rest) ++ p' :: (rest' ++ [q])) by (cbn [app]; now rewrite <- app_assoc). apply Sorted_app_link; [exact S|exact S'].
Qed.
(** every part of every cell is drawn once, in order *)
Theorem C120_every_part ortho shapes s shapes' :
  oplot_voronoi inv fwd ortho (shapes ++ s :: shapes') =
    oplot_voronoi inv fwd ortho shapes ++ match s with Single ring => [map ortho (outline inv fwd ring)] | Several rings => map (fun ring => map ortho (outline inv fwd ring)) rings end ++ oplot_voronoi inv fwd ortho shapes'.
Proof. unfold oplot_voronoi, flatten. rewrite flat_map_app, map_app. cbn [flat_map]. rewrite map_app. do 2 f_equal. now destruct s. Qed.
(** one line for each crater, from it to its neighbour *)
Theorem C120_neighbours ortho craters neighbours : length craters = length neighbours ->
  length (oplot_neighbours ortho craters neighbours) = length craters /\
  forall i c nb, nth_error craters i = Some c -> nth_error neighbours i = Some nb -> nth_error (oplot_neighbours ortho craters neighbours) i = Some (ortho c, ortho nb).
Proof.
  intros E. unfold oplot_neighbours. split; [rewrite map_length, combine_length, E; apply Nat.min_id|]. clear E. revert neighbours. induction craters as [|x l IH]; intros [|y m] [|i] c nb A B; try discriminate; cbn in *; [congruence|]. now apply IH.
Qed.
End C120.
Print Assumptions C120_outline.
Print Assumptions C120_no_gaps.
Print Assumptions C120_every_part.
Print Assumptions C120_neighbours.
(** along the equator, in degrees *)
Definition eq_dist (p q : R * R) : R := Rabs (fst q - fst p) * (PI / 180).
Definition eq_inv (p q : R * R) : R * R := (if Rleb (fst p) (fst q) then 1 else -1, eq_dist p q).
Definition eq_fwd (p : R * R) (az s : R) : R * R := (fst p + az * s * (180 / PI), 0).
Lemma eq_geodesic x y : geodesic eq_dist eq_inv eq_fwd (x, 0) (y, 0).
Proof.
  pose proof PI_RGT_0 as HP. unfold geodesic, eq_inv, eq_fwd, eq_dist. cbn [fst snd]. assert (P : 0 <= Rabs (y - x) * (PI / 180)) by (apply Rmult_le_pos; [apply Rabs_pos|lra]).
  assert (U : (if Rleb x y then 1 else -1) * Rabs (y - x) = y - x) by (destruct (Rleb_spec x y); [rewrite Rabs_right|rewrite Rabs_left]; lra). set (az := if Rleb x y then 1 else -1) in *.
  assert (A : Rabs az = 1) by (unfold az; destruct (Rleb x y); [apply Rabs_R1|rewrite Rabs_left; lra]). clearbody az.
  split; [reflexivity|]. split; [exact P|]. split; [f_equal; ring|]. split; [f_equal; transitivity (x + az * Rabs (y - x)); [field; lra|lra]|].
  intros s t _ St _. replace (x + az * t * (180 / PI) - (x + az * s * (180 / PI))) with (az * ((t - s) * (180 / PI))) by ring. rewrite Rabs_mult, A, Rabs_right; [field; lra|]. apply Rle_ge. apply Rmult_le_pos; [lra|]. apply Rlt_le. apply Rdiv_lt_0_compat; lra.
Qed.
Example C120_hypotheses_met : Forall (fun s => geodesic eq_dist eq_inv eq_fwd (fst s) (snd s) /\ eq_dist (fst s) (snd s) <= PI) (sides [(0, 0); (90, 0); (901 / 10, 0)]) /\
  2 * PI / 1800 < eq_dist (0, 0) (90, 0) /\ eq_dist (90, 0) (901 / 10, 0) <= 2 * PI / 1800.
Proof.
  pose proof PI_RGT_0 as HP. split; [|unfold eq_dist; cbn [fst snd]; split; rewrite Rabs_right; lra].
  cbn [sides combine app]. assert (Q : forall x y, -180 <= y - x <= 180 -> eq_dist (x, 0) (y, 0) <= PI).
  { intros x y B. unfold eq_dist. cbn [fst snd]. assert (Rabs (y - x) <= 180) by (unfold Rabs; destruct (Rcase_abs (y - x)); lra). nra. }
  apply Forall_cons; [|apply Forall_cons; [|apply Forall_cons; [|apply Forall_nil]]]; cbn [fst snd]; (split; [apply eq_geodesic|apply Q; lra]).
Qed.
