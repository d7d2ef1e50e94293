(** Vocabulary for the statements about the command line. *)
From Coq Require Import String Ascii List Arith ZArith Bool.
From Verif Require Import Base StrModel StrSpec FmtSpec CliModel.
Import ListNotations.

(** ** Abbreviations *)
(** v can be read off e by leaving out characters, upper and lower case alike *)
Inductive abbreviates : str -> str -> Prop :=
| abbr_nil e : abbreviates [] e
| abbr_take c x v e : lower c = lower x -> abbreviates v e -> abbreviates (c :: v) (x :: e)
| abbr_skip x v e : abbreviates v e -> abbreviates v (x :: e).
(** no characters with a meaning in regular expressions *)
Definition plain_text (v : str) : Prop := Forall (fun c => ~ In c (L ".^$*+?{}[]|()" ++ [bsl])) v.
Definition same_text (a b : str) : Prop := map lower a = map lower b.

(** ** -p arguments *)
Definition pair_text (kv : str * str) : str := fst kv ++ L "=" ++ snd kv.
Definition key_ok (k : str) : Prop := k <> [] /\ Forall (fun c => is_word c = true) k.
(** the value of a key in a dictionary with possibly repeated keys: the last one given *)
Fixpoint last_given {V} (d : list (str * V)) (k : str) : option V :=
  match d with
  | [] => None
  | (j, v) :: r => match last_given r k with Some w => Some w | None => if list_eq_dec ascii_dec j k then Some v else None end
  end.

(** ** Command files *)
(** letters, digits and @%+=:,./-_ : never changed by a shell *)
Definition harmless (s : str) : Prop := Forall (fun c => shell_safe c = true) s.
(** what argparse would take for the name of an option *)
Definition looks_like_option (a : str) : Prop := exists t, a = L "-" ++ t /\ is_pydigit (hd (ch " ") t) = false.
(** one line of text: neither line feed nor carriage return *)
Definition single_line (a : str) : Prop := ~ In nl a /\ ~ In cr a.

(** ** -select *)
(** an integer as a user may type it *)
Inductive typed_int : str -> Z -> Prop :=
| typed_plus ws ds ws' sg : Forall (fun c => is_space c = true) ws -> Forall (fun c => is_space c = true) ws' ->
    ds <> [] -> Forall (fun c => is_digit c = true) ds -> sg = [] \/ sg = L "+" ->
    typed_int (ws ++ sg ++ ds ++ ws') (digits_value ds)
| typed_minus ws ds ws' : Forall (fun c => is_space c = true) ws -> Forall (fun c => is_space c = true) ws' ->
    ds <> [] -> Forall (fun c => is_digit c = true) ds ->
    typed_int (ws ++ L "-" ++ ds ++ ws') (- digits_value ds).

(** ** Overplots *)
(** k0, as typed by the user, stands for the overplot property k *)
Definition names_key (k0 k : str) : Prop := decode_name craterplot_keys craterplot_keys k0 true = Ok k.
(** v is the last value given for k in one -p option; k is not given at all *)
Definition given_last (d : list (str * str)) (k v : str) : Prop :=
  exists d1 k0 d2, d = d1 ++ (k0, v) :: d2 /\ names_key k0 k /\ forall k1 v1, In (k1, v1) d2 -> ~ names_key k1 k.
Definition not_given (d : list (str * str)) (k : str) : Prop := forall k0 v, In (k0, v) d -> ~ names_key k0 k.
(** documented starting values (constants.py 62-79; type: poisson on sequence plots) *)
Definition documented_default (presentation k : str) : pval :=
  if list_eq_dec ascii_dec k (L "type")
  then PStr (if list_eq_dec ascii_dec presentation (L "sequence") then L "poisson" else L "data")
  else plot_defaults k.

(** ** The settings of a plot *)
(** the command line as a function: value of every option, VNone if not given *)
Definition command_line (val : str -> sval) : list (str * sval) := map (fun k => (k, val k)) parser_dests.
Definition time_plot (pres : str) : Prop := In pres (map L ["chronology"; "rate"; "sequence"; "uncertainty"]%string).
(** the value a setting has when the option is not given *)
Definition documented_setting (pres k : str) : sval :=
  if list_eq_dec ascii_dec k (L "legend") then VText (if list_eq_dec ascii_dec pres (L "sequence") then L "A" else L "fnacr")
  else if list_eq_dec ascii_dec k (L "text_halo") then VFlag (if in_dec (list_eq_dec ascii_dec) pres (map L ["chronology"; "rate"; "sequence"; "uncertainty"]%string) then 0 else 1)
  else if in_dec (list_eq_dec ascii_dec) pres (map L ["chronology"; "rate"; "sequence"; "uncertainty"]%string) then
    if list_eq_dec ascii_dec k (L "xrange") then default_xrange pres
    else if list_eq_dec ascii_dec k (L "yrange") then default_yrange pres else set_defaults k
  else set_defaults k.
