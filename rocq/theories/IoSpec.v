(** Vocabulary for the statements about crater count files. *)
From Coq Require Import String Ascii List ZArith Reals Bool.
From Verif Require Import Base BinModel StrModel StrSpec FmtSpec TsModel TsSpec.
Import ListNotations.
Local Open Scope R_scope.

(** a sign, as written *)
Definition sign_text (sg : str) (neg : bool) : Prop :=
  (sg = [] \/ sg = L "+") /\ neg = false \/ sg = L "-" /\ neg = true.
(** the exponent part of a number: nothing, or e (or E), a sign and digits *)
Definition exponent_text (ex : str) (e : Z) : Prop :=
  ex = [] /\ e = 0%Z \/
  exists c sg neg k, (c = "e"%char \/ c = "E"%char) /\ sign_text sg neg /\ all_digits k /\ k <> [] /\ ex = [c] ++ sg ++ k /\
    e = (if neg then - digits_value k else digits_value k)%Z.
(** [s] is a decimal number with value [x]: 12, 1.5, .5, 12., -3, 1.2e-05, perhaps with white space around it *)
Definition decimal (s : str) (x : R) : Prop :=
  exists w1 sg neg ip (dot : bool) fp ex e w2,
    white w1 /\ white w2 /\ sign_text sg neg /\ all_digits ip /\ all_digits fp /\ ip ++ fp <> [] /\ (dot = false -> fp = []) /\
    exponent_text ex e /\ s = w1 ++ sg ++ ip ++ (if dot then L "." ++ fp else []) ++ ex ++ w2 /\
    x = (if neg then -1 else 1) * IZR (digits_value (ip ++ fp)) / 10 ^ length fp * powerRZ 10 e.

(** the only definition with its key *)
Definition sole (l : list entry) (e : entry) : Prop :=
  exists l1 l2, l = l1 ++ e :: l2 /\ Forall (fun e' => key_of e' <> key_of e) (l1 ++ l2).
(** a text structure in a file: what remains after comments are removed is the document of the definitions l *)
Definition structure_file (fs : files) (name : str) (l : list entry) : Prop :=
  exists ls tail, read_textfile fs name false true true = Ok ls /\ join [nl] ls = document l tail /\
    l <> [] /\ Forall entry_ok l /\ repeats_ok l /\ tail_ok tail.
(** l defines k as the text w, alone *)
Definition text_entry (l : list entry) (k w : str) : Prop :=
  exists e, sole l e /\ key_of e = k /\ (value_of e = Word w \/ exists q, value_of e = InQuote q w).
(** l defines k as a table with the given column names and rows, alone *)
Definition table_entry (l : list entry) (k : str) (tags : list str) (rows : list (list token * str)) : Prop :=
  exists e ts foot, sole l e /\ key_of e = k /\ value_of e = Table ts rows foot /\ map item_word ts = tags.
(** the numbers in the column of the given name *)
Definition numbers_in (tags : list str) (rows : list (list token * str)) (t : str) (xs : list R) : Prop :=
  exists i, nth_error tags i = Some t /\ Forall2 (fun r x => decimal (cell i r) x) rows xs.

(** ** Binned counts *)
Record bin := mkBin { d_min : R; d_max : R; n_bin : R; n_cum : R; d_mean : R; width : R; n_event : R }.
(** the bins of a binned count, one by one *)
Fixpoint bins_from (lo hi n c m w e : list R) : list bin :=
  match lo, hi, n, c, m, w, e with
  | a1 :: lo, a2 :: hi, a3 :: n, a4 :: c, a5 :: m, a6 :: w, a7 :: e => mkBin a1 a2 a3 a4 a5 a6 a7 :: bins_from lo hi n c m w e
  | _, _, _, _, _, _, _ => []
  end.
Definition bins (b : binned) : list bin :=
  bins_from (b_dmin b) (b_dmax b) (b_n b) (b_ncum b) (b_dmean b) (b_width b) (b_nevent b).
(** all seven columns have the same length *)
Definition aligned (b : binned) : Prop :=
  let k := length (b_dmin b) in
  length (b_dmax b) = k /\ length (b_n b) = k /\ length (b_ncum b) = k /\ length (b_dmean b) = k /\
  length (b_width b) = k /\ length (b_nevent b) = k.
Definition populated (b : binned) : list bin := filter (fun x => if Rlt_dec 0 (n_bin x) then true else false) (bins b).
(** sizes that occur: from 10^-20 to 10^20 *)
Definition ordinary (x : R) : Prop := powerRZ 10 (-20) <= x <= powerRZ 10 20.
Definition ordinary_bin (x : bin) : Prop :=
  ordinary (d_min x) /\ ordinary (n_bin x) /\ ordinary (n_cum x) /\ ordinary (d_mean x) /\ ordinary (width x) /\ ordinary (n_event x).
(** no gap: each bin ends where the next one starts *)
Definition contiguous (l : list bin) : Prop := forall l1 x y l2, l = l1 ++ x :: y :: l2 -> d_max x = d_min y.
