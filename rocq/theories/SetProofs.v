(** Lemmas about the automatic axis ranges. *)
From Coq Require Import String List Ascii ZArith Reals Lra Lia Bool Permutation.
Import ListNotations.
From Verif Require Import Base StrModel NumModel NumLemmas FmtModel SetModel SetSpec.
Local Open Scope R_scope.

Section Best.
Variable better : R -> R -> bool.
Hypothesis irrefl : forall a, better a a = false.
Hypothesis asym : forall a b, better a b = true -> better b a = false.
Hypothesis neg : forall a b c, better a b = false -> better b c = false -> better a c = false.
Lemma best_fold l : forall b, exists m,
  fold_left (fun best v => match v, best with Some v', Some b => if better v' b then v else best | _, _ => best end) l (Some b) = Some m /\
  (m = b \/ In (Some m) l) /\ better b m = false /\ forall v, In (Some v) l -> better v m = false.
Proof using irrefl asym neg.
  induction l as [|x l IH]; intros b; cbn [fold_left].
  - exists b. split; [reflexivity|]. split; [now left|]. split; [apply irrefl|intros v []].
  - destruct x as [x|].
    + destruct (better x b) eqn:B.
      * destruct (IH x) as (m & E & M & X & A). exists m. split; [exact E|]. split; [destruct M as [->|M]; [right; now left|right; now right]|].
        split. { apply (neg b x m); [|exact X]. now apply asym. }
        intros v [H|H]; [injection H as <-; exact X|now apply A].
      * destruct (IH b) as (m & E & M & X & A). exists m. split; [exact E|]. split; [destruct M as [->|M]; [now left|right; now right]|].
        split; [exact X|]. intros v [H|H]; [injection H as <-; now apply (neg x b m)|now apply A].
    + destruct (IH b) as (m & E & M & X & A). exists m. split; [exact E|]. split; [destruct M as [->|M]; [now left|right; now right]|].
      split; [exact X|]. intros v [H|H]; [discriminate|now apply A].
Qed.
Lemma best_none l : fold_left (fun best v => match v, best with Some v', Some b => if better v' b then v else best | _, _ => best end) l (@None R) = None.
Proof using. induction l as [|[x|] l IH]; cbn [fold_left]; auto. Qed.
End Best.

Ltac rb := repeat match goal with
  | H : Rltb ?a ?b = true |- _ => destruct (Rltb_spec a b); [clear H|discriminate]
  | H : Rltb ?a ?b = false |- _ => destruct (Rltb_spec a b); [discriminate|clear H]
  end.
Lemma min_fold l b : exists m, py_min (Some b :: l) = Ok (Some m) /\ In (Some m) (Some b :: l) /\ forall v, In (Some v) (Some b :: l) -> m <= v.
Proof.
  destruct (best_fold Rltb) with (l := l) (b := b) as (m & E & M & X & A).
  - intros a. apply Rltb_false. lra.
  - intros a b0 H1. rb. apply Rltb_false. lra.
  - intros a b0 c H1 H2. rb. apply Rltb_false. lra.
  - exists m. unfold py_min, py_best. rewrite E. split; [reflexivity|]. split; [destruct M as [->|M]; [now left|now right]|].
    intros v [H|H]; [injection H as <-; rb; lra|apply A in H; rb; lra].
Qed.
Lemma max_fold l b : exists m, py_max (Some b :: l) = Ok (Some m) /\ In (Some m) (Some b :: l) /\ forall v, In (Some v) (Some b :: l) -> v <= m.
Proof.
  destruct (best_fold (fun v b => Rltb b v)) with (l := l) (b := b) as (m & E & M & X & A).
  - intros a. apply Rltb_false. lra.
  - intros a b0 H1. rb. apply Rltb_false. lra.
  - intros a b0 c H1 H2. rb. apply Rltb_false. lra.
  - exists m. unfold py_max, py_best. rewrite E. split; [reflexivity|]. split; [destruct M as [->|M]; [now left|now right]|].
    intros v [H|H]; [injection H as <-; rb; lra|apply A in H; rb; lra].
Qed.

Lemma Rmin_or a b : Rmin a b = a \/ Rmin a b = b.
Proof. unfold Rmin. destruct (Rle_dec a b); auto. Qed.
Lemma Rmax_or a b : Rmax a b = a \/ Rmax a b = b.
Proof. unfold Rmax. destruct (Rle_dec a b); auto. Qed.
Lemma gm_range_spec l : l <> [] -> exists a b, gm_range l = Some (a, b) /\ In a l /\ In b l /\ forall v, In v l -> a <= v <= b.
Proof.
  destruct l as [|x l]; [easy|intros _]. cbn [gm_range]. exists (list_min x l), (list_max x l). split; [reflexivity|].
  unfold list_min, list_max. induction l as [|y l (I1 & I2 & I3)]; cbn [fold_right].
  - split; [now left|]. split; [now left|]. intros v [<-|[]]. lra.
  - split. { destruct (Rmin_or y (fold_right Rmin x l)) as [->| ->]; [right; now left|]. destruct I1 as [I1|I1]; [now left|right; now right]. }
    split. { destruct (Rmax_or y (fold_right Rmax x l)) as [->| ->]; [right; now left|]. destruct I2 as [I2|I2]; [now left|right; now right]. }
    pose proof (Rmin_l y (fold_right Rmin x l)). pose proof (Rmin_r y (fold_right Rmin x l)).
    pose proof (Rmax_l y (fold_right Rmax x l)). pose proof (Rmax_r y (fold_right Rmax x l)).
    intros v [<-|[<-|V]]; [pose proof (I3 x (or_introl eq_refl)); lra|lra|pose proof (I3 v (or_intror V)); lra].
Qed.

Lemma ranges_app a b : ranges_of (a ++ b) = ranges_of a ++ ranges_of b.
Proof. apply flat_map_app. Qed.
Lemma ranges_errs l : Forall (fun p => exists e, p = Err e) l -> ranges_of l = [].
Proof. induction 1 as [|p l (e & ->) _ IH]; [reflexivity|]. exact IH. Qed.
Lemma ranges_in plots r : In r (ranges_of plots) <-> exists q, In (Ok q) plots /\ r = (gm_range (map fst q), gm_range (map snd q)).
Proof.
  unfold ranges_of. rewrite in_flat_map. split.
  - intros ([q|e] & I & H); cbn in H; [|easy]. destruct H as [<-|[]]. eauto.
  - intros (q & I & ->). exists (Ok q). split; [exact I|now left].
Qed.

(** python's minimum of the lower ends over the plots, when the first drawn plot has a point *)
Section Extent.
Variable f : R * R -> R.
Definition column (plots : list (res points)) : list (option (R * R)) :=
  flat_map (fun p => match p with Ok q => [gm_range (map f q)] | Err _ => [] end) plots.
Definition value (plots : list (res points)) (v : R) : Prop := exists q pt, In (Ok q) plots /\ In pt q /\ v = f pt.
Lemma column_in plots r : In r (column plots) <-> exists q, In (Ok q) plots /\ r = gm_range (map f q).
Proof.
  unfold column. rewrite in_flat_map. split.
  - intros ([q|e] & I & H); [|easy]. destruct H as [<-|[]]. eauto.
  - intros (q & I & ->). exists (Ok q). split; [exact I|now left].
Qed.
Lemma column_first plots : first_has_point plots -> exists a b rest, column plots = Some (a, b) :: rest.
Proof.
  intros (pre & q & post & -> & NE & P).
  assert (E0 : column (pre ++ Ok q :: post) = column pre ++ gm_range (map f q) :: column post) by (unfold column; rewrite flat_map_app; reflexivity).
  assert (E : column pre = []). { clear - P. induction P as [|p l (e & ->) _ IH]; [reflexivity|exact IH]. }
  rewrite E0, E. cbn [app]. destruct (gm_range_spec (map f q)) as (a & b & -> & _); [destruct q; [easy|discriminate]|]. eauto.
Qed.
Lemma extent_spec plots : first_has_point plots ->
  exists lo hi, py_min (lows (column plots)) = Ok (Some lo) /\ py_max (highs (column plots)) = Ok (Some hi) /\ spans (value plots) lo hi.
Proof.
  intros F. destruct (column_first plots F) as (a & b & rest & E).
  assert (MIN : forall v, In (Some v) (lows (column plots)) -> value plots v).
  { intros v. unfold lows. rewrite in_map_iff. intros ([[a' b']|] & H & I); [|discriminate]. cbn in H. injection H as <-.
    apply column_in in I as (q & I & H). destruct (list_eq_dec Req_EM_T (map f q) []) as [N|N].
    - rewrite N in H. discriminate.
    - destruct (gm_range_spec _ N) as (a2 & b2 & E2 & I1 & I2 & _). rewrite E2 in H. injection H as -> ->. apply in_map_iff in I1 as (pt & <- & I1). exists q, pt. auto. }
  assert (MAX : forall v, In (Some v) (highs (column plots)) -> value plots v).
  { intros v. unfold highs. rewrite in_map_iff. intros ([[a' b']|] & H & I); [|discriminate]. cbn in H. injection H as <-.
    apply column_in in I as (q & I & H). destruct (list_eq_dec Req_EM_T (map f q) []) as [N|N].
    - rewrite N in H. discriminate.
    - destruct (gm_range_spec _ N) as (a2 & b2 & E2 & I1 & I2 & _). rewrite E2 in H. injection H as -> ->. apply in_map_iff in I2 as (pt & <- & I2). exists q, pt. auto. }
  assert (ALL : forall v, value plots v -> exists a' b', In (Some a') (lows (column plots)) /\ In (Some b') (highs (column plots)) /\ a' <= v <= b').
  { intros v (q & pt & I & J & ->). assert (N : map f q <> []) by (destruct q; [easy|discriminate]).
    destruct (gm_range_spec _ N) as (a2 & b2 & E2 & _ & _ & B). exists a2, b2.
    assert (C : In (Some (a2, b2)) (column plots)) by (apply column_in; exists q; auto).
    split; [apply in_map_iff; exists (Some (a2, b2)); auto|]. split; [apply in_map_iff; exists (Some (a2, b2)); auto|]. apply B, in_map, J. }
  rewrite E in *. cbn [lows highs map option_map fst snd] in *.
  destruct (min_fold (map (option_map fst) rest) a) as (lo & E1 & L1 & L2). destruct (max_fold (map (option_map snd) rest) b) as (hi & E2 & H1 & H2).
  exists lo, hi. split; [exact E1|]. split; [exact E2|]. split; [apply MIN, L1|]. split; [apply MAX, H1|].
  intros v V. destruct (ALL v V) as (a' & b' & I1 & I2 & B). apply L2 in I1. apply H2 in I2. lra.
Qed.
End Extent.

Lemma ranges_fst plots : map fst (ranges_of plots) = column fst plots.
Proof. induction plots as [|[q|e] l IH]; [reflexivity|cbn; f_equal; exact IH|exact IH]. Qed.
Lemma ranges_snd plots : map snd (ranges_of plots) = column snd plots.
Proof. induction plots as [|[q|e] l IH]; [reflexivity|cbn; f_equal; exact IH|exact IH]. Qed.

Definition is_diff (p : presentation) : bool := presentation_eqb p Differential.
Lemma autoscale_eq p strip plots xf yf : first_has_point plots -> all_positive plots -> exists lx hx ly hy,
  spans (log_diameter plots) lx hx /\ spans (log_density plots) ly hy /\
  autoscale p strip plots xf yf =
    Ok (or_else xf (real_range (fst (auto_ranges (is_diff p) strip lx hx ly hy))),
        or_else yf (real_range (snd (auto_ranges (is_diff p) strip lx hx ly hy))), if strip then Some hy else None).
Proof.
  intros F P. destruct (extent_spec fst plots F) as (x0 & x1 & X0 & X1 & SX). destruct (extent_spec snd plots F) as (y0 & y1 & Y0 & Y1 & SY).
  exists (log10 x0), (log10 x1), (log10 y0), (log10 y1).
  assert (SPX : spans (log_diameter plots) (log10 x0) (log10 x1)).
  { destruct SX as ((q & [d y] & I & J & E) & (q' & [d' y'] & I' & J' & E') & B). cbn in E, E'. subst. split; [exists d, y; split; [exists q; auto|reflexivity]|].
    split; [exists d', y'; split; [exists q'; auto|reflexivity]|]. intros v (d2 & y2 & (q2 & I2 & J2) & ->).
    assert (PP : 0 < d /\ 0 < d2) by (split; [apply (P d y); exists q; auto|apply (P d2 y2); exists q2; auto]).
    destruct (B d2) as [B1 B2]. { exists q2, (d2, y2). auto. } split; apply log10_le; lra. }
  assert (SPY : spans (log_density plots) (log10 y0) (log10 y1)).
  { destruct SY as ((q & [d y] & I & J & E) & (q' & [d' y'] & I' & J' & E') & B). cbn in E, E'. subst. split; [exists d, y; split; [exists q; auto|reflexivity]|].
    split; [exists d', y'; split; [exists q'; auto|reflexivity]|]. intros v (d2 & y2 & (q2 & I2 & J2) & ->).
    assert (PP : 0 < y /\ 0 < y2) by (split; [apply (P d y); exists q; auto|apply (P d2 y2); exists q2; auto]).
    destruct (B y2) as [B1 B2]. { exists q2, (d2, y2). auto. } split; apply log10_le; lra. }
  split; [exact SPX|]. split; [exact SPY|]. unfold autoscale. destruct (column_first fst plots F) as (a & b & rest & C). rewrite ranges_fst, ranges_snd.
  destruct (ranges_of plots) as [|r0 rr] eqn:R. { rewrite <- ranges_fst, R in C. discriminate. }
  rewrite X0, X1, Y0, Y1. cbn [bind]. fold (is_diff p). destruct (auto_ranges (is_diff p) strip (log10 x0) (log10 x1) (log10 y0) (log10 y1)) as [xr yr]. reflexivity.
Qed.

Lemma spans_unique P a b a' b' : spans P a b -> spans P a' b' -> a = a' /\ b = b'.
Proof. intros (A & B & C) (A' & B' & C'). apply C in A' as A1. apply C in B' as B1. apply C' in A as A2. apply C' in B as B2. lra. Qed.

(** ** the arithmetic of the ranges *)
Definition first_x (lx hx : R) : Z * Z := (Rfloor (lx - 3 / 10), Rceil (hx + 8 / 10)).
Definition my_of (diff : bool) : R := if diff then 6 / 10 else 3 / 10.
Definition first_y (diff : bool) (ly hy : R) : Z * Z := (Rfloor (ly - my_of diff), Rceil (hy + my_of diff)).
Definition strip_y (strip : bool) (hy : R) (yr : Z * Z) : Z * Z :=
  if strip then (fst yr, Z.max (snd yr) (Rceil (hy + IZR (snd yr - fst yr) * 3 / 16))) else yr.
Definition left_big (lx hx : R) (xr : Z * Z) : bool := Rltb (IZR (snd xr) - hx + 8 / 10) (lx - IZR (fst xr) + 3 / 10).
Definition bottom_big (ly hy : R) (yr : Z * Z) : bool := Rltb (IZR (snd yr) - hy) (ly - IZR (fst yr)).

Ltac zdiv := Z.to_euclidean_division_equations; lia.

(** what is added at the four sides *)
Lemma auto_ranges_spec diff strip lx hx ly hy : lx <= hx -> ly <= hy ->
  exists l r b t : Z,
    let xr := first_x lx hx in let yr := strip_y strip hy (first_y diff ly hy) in
    let big_bottom := bottom_big ly (if strip then hy + IZR (snd yr - fst yr) / 8 else hy) yr in
    let big_left := left_big lx hx xr in
    auto_ranges diff strip lx hx ly hy = (widen xr l r, widen yr b t) /\
    (0 <= l /\ 0 <= r /\ 0 <= b /\ 0 <= t)%Z /\
    ((snd yr - fst yr) + b + t = (if diff then 2 else 1) * ((snd xr - fst xr) + l + r))%Z /\
    ((l + r = 0 \/ b + t <= (if diff then 1 else 0)))%Z /\
    (b <= t + 1 /\ t <= b + 1 /\ l <= r + 1 /\ r <= l + 1)%Z /\
    (b < t -> big_bottom = true)%Z /\ (t < b -> big_bottom = false)%Z /\
    (l < r -> big_left = diff)%Z /\ (r < l -> big_left = negb diff)%Z.
Proof.
  intros HX HY. unfold auto_ranges. fold (my_of diff). fold (first_x lx hx). fold (first_y diff ly hy). fold (strip_y strip hy (first_y diff ly hy)). cbv zeta.
  set (xr := first_x lx hx). set (yr := strip_y strip hy (first_y diff ly hy)). fold (left_big lx hx xr).
  fold (bottom_big ly (if strip then hy + IZR (snd yr - fst yr) / 8 else hy) yr). set (bb := bottom_big _ _ _). set (bl := left_big _ _ _).
  destruct xr as [x0 x1], yr as [y0 y1]. unfold d2, widen. cbn [fst snd]. destruct diff.
  - destruct (Z.eqb_spec ((y1 - y0) mod 2) 1) as [O|O]; [destruct bb|]; cbn [fst snd].
    + destruct (Z.ltb_spec ((y1 + 1 - (y0 - 0)) / 2 - (x1 - x0)) 0) as [D|D].
      * exists 0%Z, 0%Z, (Z.abs ((y1 + 1 - (y0 - 0)) / 2 - (x1 - x0))), (1 + Z.abs ((y1 + 1 - (y0 - 0)) / 2 - (x1 - x0)))%Z.
        split; [f_equal; f_equal; lia|]. cbn [negb]. repeat apply conj; try zdiv; try (intros; exfalso; lia); reflexivity.
      * destruct (Z.ltb_spec 0 ((y1 + 1 - (y0 - 0)) / 2 - (x1 - x0))) as [D'|D'].
        -- set (d0 := Z.abs ((y1 + 1 - (y0 - 0)) / 2 - (x1 - x0))). destruct bl.
           ++ exists (d0 / 2)%Z, (d0 - d0 / 2)%Z, 0%Z, 1%Z. split; [f_equal; f_equal; lia|]. unfold d0 in *. cbn [negb]. repeat apply conj; try zdiv; try (intros; exfalso; zdiv); reflexivity.
           ++ exists (d0 - d0 / 2)%Z, (d0 / 2)%Z, 0%Z, 1%Z. split; [f_equal; f_equal; lia|]. unfold d0 in *. cbn [negb]. repeat apply conj; try zdiv; try (intros; exfalso; zdiv); reflexivity.
        -- exists 0%Z, 0%Z, 0%Z, 1%Z. split; [f_equal; f_equal; lia|]. cbn [negb]. repeat apply conj; try zdiv; try (intros; exfalso; zdiv); reflexivity.
    + destruct (Z.ltb_spec ((y1 + 0 - (y0 - 1)) / 2 - (x1 - x0)) 0) as [D|D].
      * exists 0%Z, 0%Z, (1 + Z.abs ((y1 + 0 - (y0 - 1)) / 2 - (x1 - x0)))%Z, (Z.abs ((y1 + 0 - (y0 - 1)) / 2 - (x1 - x0)))%Z.
        split; [f_equal; f_equal; lia|]. cbn [negb]. repeat apply conj; try zdiv; try (intros; exfalso; lia); reflexivity.
      * destruct (Z.ltb_spec 0 ((y1 + 0 - (y0 - 1)) / 2 - (x1 - x0))) as [D'|D'].
        -- set (d0 := Z.abs ((y1 + 0 - (y0 - 1)) / 2 - (x1 - x0))). destruct bl.
           ++ exists (d0 / 2)%Z, (d0 - d0 / 2)%Z, 1%Z, 0%Z. split; [f_equal; f_equal; lia|]. unfold d0 in *. cbn [negb]. repeat apply conj; try zdiv; try (intros; exfalso; zdiv); reflexivity.
           ++ exists (d0 - d0 / 2)%Z, (d0 / 2)%Z, 1%Z, 0%Z. split; [f_equal; f_equal; lia|]. unfold d0 in *. cbn [negb]. repeat apply conj; try zdiv; try (intros; exfalso; zdiv); reflexivity.
        -- exists 0%Z, 0%Z, 1%Z, 0%Z. split; [f_equal; f_equal; lia|]. cbn [negb]. repeat apply conj; try zdiv; try (intros; exfalso; zdiv); reflexivity.
    + destruct (Z.ltb_spec ((y1 - y0) / 2 - (x1 - x0)) 0) as [D|D].
      * exists 0%Z, 0%Z, (Z.abs ((y1 - y0) / 2 - (x1 - x0))), (Z.abs ((y1 - y0) / 2 - (x1 - x0))).
        split; [f_equal; f_equal; lia|]. cbn [negb]. repeat apply conj; try zdiv; try (intros; exfalso; lia); reflexivity.
      * destruct (Z.ltb_spec 0 ((y1 - y0) / 2 - (x1 - x0))) as [D'|D'].
        -- set (d0 := Z.abs ((y1 - y0) / 2 - (x1 - x0))). destruct bl.
           ++ exists (d0 / 2)%Z, (d0 - d0 / 2)%Z, 0%Z, 0%Z. split; [f_equal; f_equal; lia|]. unfold d0 in *. cbn [negb]. repeat apply conj; try zdiv; try (intros; exfalso; zdiv); reflexivity.
           ++ exists (d0 - d0 / 2)%Z, (d0 / 2)%Z, 0%Z, 0%Z. split; [f_equal; f_equal; lia|]. unfold d0 in *. cbn [negb]. repeat apply conj; try zdiv; try (intros; exfalso; zdiv); reflexivity.
        -- exists 0%Z, 0%Z, 0%Z, 0%Z. split; [f_equal; f_equal; lia|]. cbn [negb]. repeat apply conj; try zdiv; try (intros; exfalso; zdiv); reflexivity.
  - set (d0 := Z.abs (y1 - y0 - (x1 - x0))). destruct (Z.ltb_spec (y1 - y0 - (x1 - x0)) 0) as [D|D].
    + destruct bb.
      * exists 0%Z, 0%Z, (d0 / 2)%Z, (d0 - d0 / 2)%Z. split; [f_equal; f_equal; lia|]. unfold d0 in *. cbn [negb]. repeat apply conj; try zdiv; try (intros; exfalso; zdiv); reflexivity.
      * exists 0%Z, 0%Z, (d0 - d0 / 2)%Z, (d0 / 2)%Z. split; [f_equal; f_equal; lia|]. unfold d0 in *. cbn [negb]. repeat apply conj; try zdiv; try (intros; exfalso; zdiv); reflexivity.
    + destruct (Z.ltb_spec 0 (y1 - y0 - (x1 - x0))) as [D'|D'].
      * destruct bl.
        -- exists (d0 - d0 / 2)%Z, (d0 / 2)%Z, 0%Z, 0%Z. split; [f_equal; f_equal; lia|]. unfold d0 in *. cbn [negb]. repeat apply conj; try zdiv; try (intros; exfalso; zdiv); reflexivity.
        -- exists (d0 / 2)%Z, (d0 - d0 / 2)%Z, 0%Z, 0%Z. split; [f_equal; f_equal; lia|]. unfold d0 in *. cbn [negb]. repeat apply conj; try zdiv; try (intros; exfalso; zdiv); reflexivity.
      * exists 0%Z, 0%Z, 0%Z, 0%Z. split; [f_equal; f_equal; lia|]. cbn [negb]. repeat apply conj; try zdiv; try (intros; exfalso; zdiv); reflexivity.
Qed.

(** the top of the axis leaves an eighth of its height above the data once the strip is asked for *)
Lemma strip_room diff ly hy : ly <= hy -> let yr := strip_y true hy (first_y diff ly hy) in
  IZR (snd yr - fst yr) / 8 <= IZR (snd yr) - hy /\ 3 / 10 <= ly - IZR (fst yr) /\ 3 / 10 <= IZR (snd yr) - hy.
Proof.
  intros H. unfold strip_y, first_y. cbn [fst snd]. set (my := my_of diff). assert (M : 3 / 10 <= my) by (unfold my, my_of; destruct diff; lra).
  set (fy := Rfloor (ly - my)). set (c0 := Rceil (hy + my)). pose proof (Rfloor_spec (ly - my)) as F. pose proof (Rceil_spec (hy + my)) as C. fold fy in F. fold c0 in C.
  set (m0 := (c0 - fy)%Z). set (c1 := Rceil (hy + IZR m0 * 3 / 16)). pose proof (Rceil_spec (hy + IZR m0 * 3 / 16)) as C1. fold c1 in C1.
  assert (M0 : (1 <= m0)%Z). { assert (IZR 0 < IZR m0) as Q by (unfold m0; rewrite minus_IZR; lra). apply lt_IZR in Q. lia. }
  apply IZR_le in M0 as M0'.
  destruct (Z.max_spec c0 c1) as [[L ->]|[L ->]].
  - assert (D : (2 * (c1 - c0) <= m0)%Z).
    { destruct (Z_le_gt_dec (2 * (c1 - c0)) m0) as [|G]; [assumption|]. assert (G' : (m0 + 1 <= 2 * (c1 - c0))%Z) by lia. apply IZR_le in G'.
      rewrite plus_IZR, mult_IZR, minus_IZR in G'. lra. }
    apply IZR_le in D. rewrite mult_IZR, minus_IZR in D. rewrite minus_IZR. unfold m0 in C1, D. rewrite minus_IZR in C1, D. apply IZR_lt in L. lra.
  - apply IZR_le in L. fold m0. unfold m0 in *. rewrite minus_IZR in *. lra.
Qed.
Lemma strip_top diff lx hx ly hy : lx <= hx -> ly <= hy -> let yr := snd (auto_ranges diff true lx hx ly hy) in
  IZR (snd yr - fst yr) / 8 <= IZR (snd yr) - hy /\ (fst yr < snd yr)%Z.
Proof.
  intros HX HY. destruct (auto_ranges_spec diff true lx hx ly hy HX HY) as (l & r & b & t & S). cbv zeta in S. destruct S as (E & (L0 & R0 & B0 & T0) & _ & _ & (BT & TB & _) & _ & T2 & _).
  cbv zeta. rewrite E. cbn [snd]. pose proof (strip_room diff ly hy HY) as (A1 & A2 & A3). set (yr := strip_y true hy (first_y diff ly hy)) in *.
  destruct yr as [y0 y1]. unfold widen. cbn [fst snd] in *.
  assert (Y : (y0 < y1)%Z) by (apply lt_IZR; lra). split; [|lia].
  replace (y1 + t - (y0 - b))%Z with (y1 - y0 + (b + t))%Z by lia. rewrite !plus_IZR.
  destruct (Z_lt_ge_dec t b) as [Q|Q].
  - specialize (T2 Q). unfold bottom_big in T2. rb. cbn [fst snd] in *. assert (b = t + 1)%Z by lia. subst b. rewrite plus_IZR. apply IZR_le in T0. lra.
  - assert (B' : (b <= t)%Z) by lia. apply IZR_le in B', T0. lra.
Qed.
