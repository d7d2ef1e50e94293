(** Reading the text that writeSCCfile writes. *)
From Coq Require Import String Ascii List ZArith Reals Bool Lia Lra.
From Verif Require Import Base NumModel BinModel StrModel StrSpec StrProofs StrProofs2 CliModel CliProofs FmtModel FmtSpec FmtProofs
  TsModel TsSpec TsProofs TsProofs5 IoModel IoSpec IoProofs IoProofs2 IoProofs3 IoProofs4 SccModel SccProofs.
Import ListNotations.
Local Open Scope R_scope.

Lemma quiet_num s : Forall (fun c => num_char c = true) s -> quiet s = true.
Proof. intros H. apply quiet_no_a. intros K. apply (proj1 (Forall_forall _ _) H) in K. vm_compute in K. discriminate K. Qed.
Lemma quiet_rows rows : Forall (fun r => ~ In "a"%char r) rows -> quiet (concat (map (fun r => r ++ [nl]) rows)) = true.
Proof.
  intros F. apply quiet_no_a. induction F as [|r rows H F IH]; [intros []|]. cbn [map concat]. rewrite !in_app_iff.
  intros [[K|K]|K]; [contradiction|destruct K as [K|[]]; discriminate K|contradiction].
Qed.
Section Read.
Variables (version : str) (radius area perimeter : R) (v : list (Z * str * (R * R))) (craters : list crater).
Hypothesis VW : row_word version.
Hypothesis TW : Forall (fun it => row_word (snd (fst it))) v.
Notation kept := (scc_kept version radius area perimeter v craters).
Notation doc := (scc_doc version radius area perimeter v craters).

Lemma kept_text : join [nl] kept =
  L "craterstats_version = " ++ version ++ [nl] ++ L "a_axis_radius = " ++ km radius ++ [nl] ++ L "Total_area = " ++ km2 area ++ [nl] ++
  L "Total_perimeter = " ++ km perimeter ++ [nl] ++ L "a-axis radius" ++ (L " = " ++ km radius ++ [nl] ++
  L "unit_boundary = {vertex, sub_area, tag, lon, lat" ++ [nl] ++ concat (map (fun r => r ++ [nl]) (boundary_rows v)) ++ L "}" ++ [nl] ++
  L "crater = {diam, fraction, lon, lat, topo_scale_factor" ++ [nl] ++ concat (map (fun r => r ++ [nl]) (map crater_row craters)) ++ L "}").
Proof.
  unfold scc_kept. cbn [app]. rewrite !join_cons.
  assert (J : forall (h : str) rows (x : str) rest, join [nl] (h :: rows ++ x :: rest) = h ++ [nl] ++ concat (map (fun r => r ++ [nl]) rows) ++ join [nl] (x :: rest)).
  { intros h rows. revert h. induction rows as [|r rows IH]; intros h x rest.
    - cbn [app map concat]. rewrite join_cons. reflexivity.
    - change (h :: (r :: rows) ++ x :: rest) with (h :: r :: (rows ++ x :: rest)). rewrite join_cons, IH. cbn [map concat]. rewrite <- !app_assoc. reflexivity. }
  rewrite J, join_cons, join_rows. rewrite <- !app_assoc. reflexivity.
Qed.
Lemma sub_text : sub_axis 0 (join [nl] kept) = document doc [].
Proof.
  rewrite kept_text.
  assert (QV : quiet version = true). { apply quiet_no_a. intros K. apply (proj1 (Forall_forall _ _) (proj2 VW)) in K. vm_compute in K. discriminate K. }
  assert (QG : forall x, quiet (fmt_g 6 x) = true) by (intros x; apply quiet_num, fmt_g_chars).
  assert (QB : quiet (concat (map (fun r => r ++ [nl]) (boundary_rows v))) = true).
  { apply quiet_rows. unfold boundary_rows. rewrite Forall_map. eapply Forall_impl; [|exact (boundary_each _ TW)]. intros it H. now apply boundary_good. }
  assert (QC : quiet (concat (map (fun r => r ++ [nl]) (map crater_row craters))) = true).
  { apply quiet_rows. rewrite Forall_map. apply Forall_forall. intros c _. apply crater_good. }
  unfold km, km2. rewrite <- !app_assoc.
  rewrite (quiet_sub (L "craterstats_version = ")) by reflexivity. rewrite (quiet_sub version) by exact QV. rewrite (quiet_sub [nl]) by reflexivity.
  rewrite (quiet_sub (L "a_axis_radius = ")) by reflexivity. rewrite (quiet_sub (fmt_g 6 radius)) by apply QG.
  rewrite (quiet_sub (L " <km>")) by reflexivity. rewrite (quiet_sub [nl]) by reflexivity.
  rewrite (quiet_sub (L "Total_area = ")) by reflexivity. rewrite (quiet_sub (fmt_g 6 area)) by apply QG.
  rewrite (quiet_sub (L " <km2>")) by reflexivity. rewrite (quiet_sub [nl]) by reflexivity.
  rewrite (quiet_sub (L "Total_perimeter = ")) by reflexivity. rewrite (quiet_sub (fmt_g 6 perimeter)) by apply QG.
  rewrite (quiet_sub (L " <km>")) by reflexivity. rewrite (quiet_sub [nl]) by reflexivity.
  rewrite sub_line. rewrite (quiet_sub (L " = ")) by reflexivity. rewrite (quiet_sub (fmt_g 6 radius)) by apply QG.
  rewrite (quiet_sub (L " <km>")) by reflexivity. rewrite (quiet_sub [nl]) by reflexivity.
  rewrite (quiet_sub (L "unit_boundary = {vertex, sub_area, tag, lon, lat")) by reflexivity. rewrite (quiet_sub [nl]) by reflexivity.
  rewrite (quiet_sub _ _ QB). rewrite (quiet_sub (L "}")) by reflexivity. rewrite (quiet_sub [nl]) by reflexivity.
  rewrite (quiet_sub (L "crater = {diam, fraction, lon, lat, topo_scale_factor")) by reflexivity. rewrite (quiet_sub [nl]) by reflexivity.
  rewrite (quiet_sub _ _ QC). change (sub_axis 0 (L "}")) with (L "}").
  unfold document, scc_doc. cbn [map]. rewrite !join_cons. cbn [join]. rewrite app_nil_r.
  unfold line_entry, boundary_value, crater_value. cbn [entry_text value_text app map]. rewrite !app_nil_r.
  unfold boundary_table, crater_table, boundary_rows. rewrite !map_map. cbn [snd]. unfold km, km2. rewrite <- !app_assoc. rewrite <- app_comm_cons, <- !app_assoc. reflexivity.
Qed.
Lemma word_km x suffix : suffix = L " <km>" \/ suffix = L " <km2>" -> flat_ok false (Word (fmt_g 6 x ++ suffix)).
Proof.
  intros S. pose proof (fmt_g_chars 6 x) as A. destruct (fmt_g_word 6 x) as [[B _] _].
  assert (HD : num_char (hd " "%char (fmt_g 6 x)) = true) by (destruct (fmt_g 6 x); [congruence|now inversion A]).
  destruct (fmt_g 6 x) as [|c s]; [congruence|]. cbn [hd] in HD. destruct (num_char_facts _ HD) as (K1 & K2 & K3).
  assert (NL : forall d, In d ((c :: s) ++ suffix) -> d <> nl).
  { intros d K E. subst d. apply in_app_or in K as [K|K].
    - apply (proj1 (Forall_forall _ _) A) in K. vm_compute in K. discriminate K.
    - destruct S; subst suffix; cbn in K; intuition discriminate. }
  cbn [flat_ok app hd]. split; [intros K; destruct (NL nl K eq_refl)|]. split; [exact K1|]. split.
  { destruct S; subst suffix; change (c :: s ++ ?t) with ((c :: s) ++ t).
    - change (L " <km>") with (L " <km" ++ [">"%char]). rewrite app_assoc. rewrite last_last. reflexivity.
    - change (L " <km2>") with (L " <km2" ++ [">"%char]). rewrite app_assoc. rewrite last_last. reflexivity. }
  split; [intros K; apply K3; cbn in *; tauto|]. split; [|discriminate].
  intros q u Q E. injection E as E _. subst c. destruct Q; subst q; vm_compute in HD; discriminate HD.
Qed.
Lemma word_version : flat_ok false (Word version).
Proof.
  destruct VW as [N W]. assert (F : forall c, In c version -> is_space c = false /\ is_break c = false /\ ~ In c (dq :: sq :: L ";#={}*[(") /\ c <> "a"%char).
  { intros c K. apply row_char_facts. now apply (proj1 (Forall_forall _ _) W). }
  assert (HD : In (hd " "%char version) version) by (destruct version; [congruence|now left]).
  assert (LS : In (last version " "%char) version). { destruct (exists_last N) as (u & x & E). rewrite E at 1. rewrite last_last, E. apply in_or_app. right. now left. }
  cbn [flat_ok]. split; [intros K; exfalso; apply F in K as (_ & K & _); vm_compute in K; discriminate K|]. split; [now apply F|]. split; [now apply F|].
  split; [intros K; apply F in HD as (_ & _ & HD & _); apply HD; cbn in *; tauto|]. split; [|discriminate].
  intros q u Q E. assert (K : In q version) by (rewrite E; now left). apply F in K as (_ & _ & K & _). apply K. destruct Q; subst q; cbn; tauto.
Qed.
Definition name_word (w : str) : Prop := w <> [] /\ Forall (fun c => is_word c = true) w.
Lemma name_item b w : blanks b -> name_word w ->
  item_ok (L " ") (L ",{}=") (Item b None w []) /\ one_line (item_word (Item b None w [])) /\ (@None ascii) = None.
Proof.
  intros Hb [Nw Hw]. assert (AL : forall c, is_word c = true -> is_break c = false /\ c <> " "%char /\ ~ In c (L ",{}=") /\ c <> dq /\ c <> sq).
  { clear. intros [[] [] [] [] [] [] [] []] H; try (vm_compute in H; discriminate H); (split; [reflexivity|]; split; [discriminate|]; split; [cbn; intuition discriminate|split; discriminate]). }
  cbn [item_ok item_word]. split; [|split; [|reflexivity]].
  - split; [eapply Forall_impl; [|exact Hb]; intros c ->; cbn; auto|]. split; [constructor|].
    split; [eapply Forall_impl; [|exact Hw]; intros c K; now apply AL|].
    split; [destruct w; [congruence|]; inversion Hw; subst; cbn; now apply AL|].
    split; [destruct (exists_last Nw) as (u & x & E); rewrite E, last_last; apply AL; apply (proj1 (Forall_forall _ _) Hw); rewrite E; apply in_or_app; right; now left|].
    intros q u Hq E. assert (K : In q w) by (rewrite E; now left). apply (proj1 (Forall_forall _ _) Hw) in K. apply AL in K. destruct Hq; subst; tauto.
  - eapply Forall_impl; [|exact Hw]. intros c K. now apply AL.
Qed.
Lemma line_frame k val : name_word k -> frame_ok (line_entry k val).
Proof.
  intros [N H]. unfold line_entry. cbn [frame_ok]. split; [constructor|]. split. { split; [exact N|]. eapply Forall_impl; [|exact H]. auto. }
  split; [repeat constructor|]. split; [repeat constructor|]. split; [cbn; intuition discriminate|constructor].
Qed.
Ltac name := split; [discriminate|repeat constructor].
Lemma doc_ok : Forall entry_ok doc /\ repeats_ok doc.
Proof.
  split.
  - unfold scc_doc.
    apply Forall_cons; [split; [apply line_frame; name|exact word_version]|].
    apply Forall_cons; [split; [apply line_frame; name|apply word_km; now left]|].
    apply Forall_cons; [split; [apply line_frame; name|apply word_km; now right]|].
    apply Forall_cons; [split; [apply line_frame; name|apply word_km; now left]|].
    apply Forall_cons; [split; [apply line_frame; name|apply word_km; now left]|].
    apply Forall_cons; [split; [apply line_frame; name|]|apply Forall_cons; [split; [apply line_frame; name|]|constructor]].
    + cbn [value_of line_entry boundary_value flat_ok]. split; [discriminate|]. split. { cbn [map item_word item1 item2]. repeat constructor; cbn; intuition discriminate. }
      split. { unfold item1, item2. repeat (apply Forall_cons; [apply name_item; [repeat constructor|name]|]). constructor. }
      split; [reflexivity|]. split; [discriminate|]. split; [|constructor].
      unfold boundary_table. rewrite Forall_map. eapply Forall_impl; [|exact (boundary_each _ TW)]. intros it H. now apply boundary_good.
    + cbn [value_of line_entry crater_value flat_ok]. split; [discriminate|]. split. { cbn [map item_word item1 item2]. repeat constructor; cbn; intuition discriminate. }
      split. { unfold item1, item2. repeat (apply Forall_cons; [apply name_item; [repeat constructor|name]|]). constructor. }
      split; [reflexivity|]. split; [discriminate|]. split; [|constructor].
      unfold crater_table. rewrite Forall_map. apply Forall_forall. intros c _. apply crater_good.
  - intros l1 e l2 E (x & y & z & V). exfalso. unfold scc_doc in E.
    destruct l1 as [|? [|? [|? [|? [|? [|? [|? [|? ?]]]]]]]]; cbn in E; injection E; intros; subst; cbn in V; try discriminate V; try discriminate.
Qed.
Definition keys : list str := map key_of doc.
Lemma doc_sole i e : nth_error doc i = Some e -> sole doc e.
Proof.
  clear VW TW. intros H. destruct (nth_error_split _ _ H) as (l1 & l2 & E & LN). exists l1, l2. split; [exact E|].
  assert (ND : NoDup (map key_of doc)). { unfold scc_doc. cbn [map key_of line_entry app]. repeat constructor; cbn; intuition discriminate. }
  rewrite E in ND. rewrite map_app in ND. cbn [map] in ND. apply NoDup_remove_2 in ND.
  apply Forall_forall. intros e' K Q. apply ND. rewrite <- Q, <- map_app. now apply in_map.
Qed.
Lemma doc_dict : exists d ts, read_structure (sub_axis 0 (join [nl] kept)) = Ok (Some d) /\ Forall2 means doc ts /\ holds d doc ts.
Proof.
  rewrite sub_text. destruct doc_ok as [A B]. apply read_document; [discriminate|exact A|exact B|now left].
Qed.
End Read.
